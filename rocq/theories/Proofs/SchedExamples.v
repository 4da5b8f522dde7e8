(** Concrete histories of the scheduler, used as examples and counterexamples. *)

From Verif.Model Require Import Base OneToManyDict Allocator Message Sorter Scheduler.
From Verif.Spec Require Import SchedulerSpec.

(** No waiting limit, two tasks per worker, timeout 60, retention 3600, balancing
    after two equal advices. *)
Definition cfg : config := Config (-1) 2 60 3600 1 2.
Definition info : heartbeat := Heartbeat 10 20 30 40 0 5 true true false.
Definition beat : message := MHeartbeat info.
Definition from (src : bytes) (m : message) : round := Round 0 [] (ERecv src m).
Definition tick (ev : event) : round := Round 0 [] ev.
Definition later (now : Z) (ev : event) : round := Round now [] ev.
Definition add (f : bytes) : round := from "cl" (MFunctionRequest FnAdd f "name" "code").
Definition task_of (t : bytes) : task := Task t "f" [ArgData t].
Definition submit (t : bytes) : list round := [from "cl" (MTask (task_of t)); tick EDispatch].
Definition done (w t : bytes) : round := from w (MTaskResult t Success 7 "value").

(** What was sent, and crashes. *)
Definition sent (s : sched) : list entry :=
  List.filter (λ e, match e with LSend _ _ | LCrash _ => true | _ => false end) (s_log s).

(** Two workers, three tasks, one of them finished. *)
Definition busy : list round :=
  [from "w1" beat; from "w2" beat; add "f"] ++ submit "a" ++ submit "b" ++ submit "c" ++ [done "w1" "a"].
(** ... then a fourth waits while worker w1 has one task and w2 one. *)
Definition waiting : list round := busy ++ submit "d" ++ submit "e" ++ [from "cl" (MTask (task_of "g")); tick EDispatch].

(** ** Counterexamples *)
(** C32: no worker yet, the only task is cancelled, and still sent. *)
Definition lost_cancel : list round :=
  [add "f"] ++ submit "a" ++ [from "cl" (MTaskCancel "a"); from "w" beat; tick EDispatch].
(** C36: "c" is older than "d" but starts later. *)
Definition overtaking : list round :=
  [from "w1" beat; add "f"] ++ submit "a" ++ submit "b" ++ submit "c" ++ submit "d" ++ [done "w1" "a"; tick EDispatch].
(** C38: waiting limit zero. *)
Definition cfg0 : config := Config 0 2 60 3600 1 2.
Definition full : list round :=
  [from "w" beat; add "f"] ++ submit "a" ++ submit "b" ++ submit "c" ++ [done "w" "a"].
(** ... and an idle worker that is reported busy, with one task per worker. *)
Definition cfg1 : config := Config 0 1 60 3600 1 2.
Definition refused : list round :=
  [from "w" beat; add "f"] ++ submit "a" ++ submit "b" ++ [done "w" "a"].
(** ... the same id twice. *)
Definition twice : list round := [from "w" beat; add "f"; from "cl" (MTask (task_of "a")); from "cl" (MTask (task_of "a"))].

(** ** Checking that a concrete history is well-behaved *)
Definition acceptedb (t : bytes) (h : history) : bool :=
  existsb (λ e, match e with LSend _ (MTaskEcho t' SubmitOK) => String.eqb t' t | _ => false end) h.
Definition politeb (before : history) (e : entry) : bool :=
  match e with
  | LIn _ (ERecv src m) =>
      negb (undispatched before) && utf8 src &&
      match m with
      | MTask k => negb (acceptedb (task_id k) before)
      | MGraphTask _ _ _ _ | MGraphTaskCancel _ => false
      | MFunctionRequest FnAdd _ name _ => utf8 name
      | MFunctionRequest FnDelete _ _ _ => false
      | _ => true
      end
  | LIn _ EWorkers => negb (undispatched before)
  | _ => true
  end.
Lemma politeb_ok before e : politeb before e = true → polite utf8 before e.
Proof.
  destruct e as [now ev| | | | | |]; try done. destruct ev as [src m| | | | |]; try done; cbn [politeb polite].
  2: { intros H. apply negb_true_iff in H. exact H. }
  intros H. apply andb_true_iff in H as [H Hm]. apply andb_true_iff in H as [H1 H2]. apply negb_true_iff in H1.
  split; [exact H1|]. split; [exact H2|]. destruct m; try done.
  - intros [c Ha]. apply negb_true_iff in Hm. unfold acceptedb in Hm. apply not_true_iff_false in Hm. apply Hm.
    apply existsb_exists. eexists. split; [apply elem_of_list_In; exact Ha|]. apply String.eqb_refl.
  - match goal with ty : function_request_type |- _ => destruct ty end; done.
Qed.
Fixpoint alwaysb (p : history → entry → bool) (before h : history) : bool :=
  match h with [] => true | e :: h => p before e && alwaysb p (before ++ [e]) h end.
Lemma alwaysb_ok (p : history → entry → bool) (P : history → entry → Prop) : (∀ b e, p b e = true → P b e) →
  ∀ h b, alwaysb p b h = true → ∀ before e after, h = before ++ e :: after → P (b ++ before) e.
Proof.
  intros Hp h. induction h as [|x h IH]; intros b Hb before e after E; [destruct before; discriminate|].
  cbn in Hb. apply andb_true_iff in Hb as [H1 H2]. destruct before as [|y before]; cbn in E; injection E as -> E.
  - rewrite app_nil_r. auto.
  - subst h. specialize (IH _ H2 before e after eq_refl). rewrite <- app_assoc in IH. exact IH.
Qed.
Lemma polite_check h : alwaysb politeb [] h = true → always (polite utf8) h.
Proof. intros H before e after E. exact (alwaysb_ok _ _ politeb_ok h [] H before e after E). Qed.
