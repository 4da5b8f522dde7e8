(** How long a processor keeps a function: C84. *)

From Verif.Model Require Import Base Message Processor.
From Verif.Spec Require Import ProcessorSpec CacheSpec.
From Verif.Proofs Require Import HistoryProofs ProcessorProofs.

Lemma exec_snoc r rs x : p_exec r (rs ++ [x]) = p_step (p_exec r rs) x.
Proof. unfold p_exec. by rewrite foldl_app. Qed.

Lemma snoc_split {A} (l : list A) x before y after : l ++ [x] = before ++ y :: after → (after = [] ∧ before = l ∧ y = x) ∨ ∃ after', after = after' ++ [x] ∧ l = before ++ y :: after'.
Proof.
  intros E. destruct (decide (after = [])) as [-> |Hne].
  - left. apply app_inj_tail in E as [-> ->]. done.
  - right. destruct (exists_last Hne) as (after' & z & ->). exists after'.
    replace (before ++ y :: after' ++ [z]) with ((before ++ y :: after') ++ [z]) in E by (by rewrite <- app_assoc). apply app_inj_tail in E as [-> ->]. done.
Qed.

Lemma sorted_le (rs : list pround) now e before x after : in_time (rs ++ [PRound now e]) → rs = before ++ x :: after → pr_now x <= now.
Proof.
  unfold in_time. rewrite fmap_app. cbn. intros Hs ->. rewrite fmap_app in Hs. cbn in Hs. rewrite <- app_assoc in Hs.
  induction before as [|y before IH]; cbn in Hs; apply StronglySorted_inv in Hs as [Hs Hf]; [|auto].
  rewrite Forall_app in Hf. destruct Hf as [_ Hf]. by inversion Hf.
Qed.
Lemma in_time_app rs rs' : in_time (rs ++ rs') → in_time rs.
Proof.
  unfold in_time. rewrite fmap_app. induction rs as [|x rs IH]; cbn; [constructor|]. intros [Hs Hf]%StronglySorted_inv.
  constructor; [auto|]. by apply Forall_app in Hf as [Hf _].
Qed.

(** Why a function can have been lost. *)
Definition found_idle (r : Z) (f : bytes) (rs : list pround) : Prop :=
  ∃ rs1 s rs2, rs = rs1 ++ PRound s PScan :: rs2 ∧ idle r rs1 f s ∧ is_Some (provided f (p_exec r rs1).2).
Definition lost (r : Z) (f : bytes) (rs : list pround) : Prop :=
  ∃ rs1 s rs2 d rs3, rs = rs1 ++ PRound s PScan :: rs2 ++ PRound d PDelete :: rs3 ∧ idle r rs1 f s ∧ is_Some (provided f (p_exec r rs1).2).
Lemma found_snoc r f rs x : found_idle r f rs → found_idle r f (rs ++ [x]).
Proof. intros (rs1 & s & rs2 & -> & H). exists rs1, s, (rs2 ++ [x]). by rewrite <- app_assoc. Qed.
Lemma lost_snoc r f rs x : lost r f rs → lost r f (rs ++ [x]).
Proof. intros (rs1 & s & rs2 & d & rs3 & -> & H). exists rs1, s, rs2, d, (rs3 ++ [x]). split; [|done]. rewrite <- app_assoc. cbn. by rewrite <- app_assoc. Qed.
Lemma found_lost r f rs d : found_idle r f rs → lost r f (rs ++ [PRound d PDelete]).
Proof. intros (rs1 & s & rs2 & -> & H). exists rs1, s, rs2, d, []. split; [|done]. by rewrite <- app_assoc. Qed.

(** The times of messages received about [f]. *)
Definition uses (r : Z) (rs : list pround) (f : bytes) (u : Z) : Prop :=
  ∃ before m loads after, rs = before ++ PRound u (PMsg m loads) :: after ∧ concerns f m = true ∧ seen r before (PRound u (PMsg m loads)).
Lemma uses_snoc r rs f x u : uses r (rs ++ [x]) f u → uses r rs f u ∨ (∃ m loads, x = PRound u (PMsg m loads) ∧ concerns f m = true ∧ seen r rs x).
Proof.
  intros (before & m & loads & after & E & Hc & Hs). apply snoc_split in E as [(-> & -> & E)|(after' & -> & ->)].
  - right. subst x. eauto.
  - left. exists before, m, loads, after'. done.
Qed.
Lemma uses_le r rs f now e u : in_time (rs ++ [PRound now e]) → uses r (rs ++ [PRound now e]) f u → u <= now.
Proof.
  intros Hs (before & m & loads & after & E & _). apply snoc_split in E as [(-> & -> & E)|(after' & -> & E)].
  - injection E as <- _. lia.
  - apply (sorted_le rs now e before (PRound u (PMsg m loads)) after' Hs E).
Qed.

Record kept (r : Z) (f : bytes) (rs : list pround) (p : processor) (h : list pentry) : Prop := {
  kp_r : c_retention p = r;
  kp_dom : is_Some (c_functions p !! f) ↔ is_Some (c_since p !! f);
  kp_some : is_Some (c_functions p !! f) → is_Some (provided f h);
  kp_none c : provided f h = Some c → c_functions p !! f = None → lost r f rs;
  kp_since u0 : c_since p !! f = Some u0 → ∀ u, uses r rs f u → u <= u0;
  kp_doomed : f ∈ c_doomed p → found_idle r f rs }.

(** A message that concerns another function, or another event. *)
Definition about (f : bytes) (e : pevent) : bool := match e with PMsg m _ => concerns f m | _ => false end.
Lemma kept_quiet r f rs p h now e p' out : kept r f rs p h → about f e = false → (∀ c, provided f (h ++ out) = Some c → provided f h = Some c) → (is_Some (provided f h) → is_Some (provided f (h ++ out))) →
  c_retention p' = c_retention p → c_functions p' !! f = c_functions p !! f → c_since p' !! f = c_since p !! f → c_doomed p' = c_doomed p →
  kept r f (rs ++ [PRound now e]) p' (h ++ out).
Proof.
  intros [K1 K2 K3 K4 K5 K6] Ha Hp1 Hp2 E1 E2 E3 E4. split; rewrite ?E1, ?E2, ?E3, ?E4; auto.
  - intros c Hc Hn. apply lost_snoc. eauto.
  - intros u0 Hu u [H|(m & loads & E & Hc & _)]%uses_snoc; [eauto|]. injection E as -> ->. cbn in Ha. congruence.
  - intros H. apply found_snoc. auto.
Qed.

Lemma kept_step r f rs now e p h : (p_exec r rs) = (p, h) → c_main p ≠ Stopped → in_time (rs ++ [PRound now e]) → kept r f rs p h →
  c_main (p_step (p, h) (PRound now e)).1 ≠ Stopped →
  kept r f (rs ++ [PRound now e]) (p_step (p, h) (PRound now e)).1 (p_step (p, h) (PRound now e)).2.
Proof.
  intros Er Hst Ht K Hst'. destruct e as [m loads| |o d| |].
  5:{ unfold p_step in *. cbn [pr_now pr_event] in *. assert (Ha : ∀ x : processor * list pentry, match c_main p with Stopped => (p, h) | _ => x end = x) by (intros x; destruct (c_main p); congruence).
      rewrite Ha in *. clear Ha. unfold p_delete in *. destruct (c_doomed p) as [|g rest] eqn:Ed; cbn [fst snd] in *.
      - replace h with (h ++ []) by apply app_nil_r. eapply kept_quiet; try done; rewrite ?app_nil_r; auto.
      - pose proof K as [K1 K2 K3 K4 K5 K6]. rewrite Ed in K6. split; pp; auto.
        + destruct (decide (g = f)) as [-> |Hne]; [rewrite !lookup_delete; split; intros [? ?]; discriminate|rewrite !lookup_delete_ne by done; exact K2].
        + destruct (decide (g = f)) as [-> |Hne]; [rewrite lookup_delete; intros [? ?]; discriminate|rewrite lookup_delete_ne by done; exact K3].
        + intros c Hc Hn. destruct (decide (g = f)) as [-> |Hne]; [apply found_lost, K6; left|rewrite lookup_delete_ne in Hn by done; apply lost_snoc; eauto].
        + intros u0 Hu u [H|(m & l & E & _)]%uses_snoc; [|done]. apply lookup_delete_Some in Hu as [_ Hu]. eauto.
        + intros Hin. apply found_snoc, K6. by right. }
  4:{ unfold p_step in *. cbn [pr_now pr_event] in *. assert (Ha : ∀ x : processor * list pentry, match c_main p with Stopped => (p, h) | _ => x end = x) by (intros x; destruct (c_main p); congruence).
      rewrite Ha in *. clear Ha. unfold p_scan in *. destruct (c_doomed p) as [|g rest] eqn:Ed; cbn [fst snd] in *.
      - pose proof K as [K1 K2 K3 K4 K5 K6]. split; pp; auto.
        + intros c Hc Hn. apply lost_snoc. eauto.
        + intros u0 Hu u [H|(m & l & E & _)]%uses_snoc; [|done]. eauto.
        + intros ([g u0] & Eg & Hin)%elem_of_list_fmap. cbn in Eg. subst g. apply elem_of_list_In, filter_In in Hin as [Hin Hlt].
          apply elem_of_list_In, elem_of_map_to_list in Hin. cbn in Hlt. apply Z.ltb_lt in Hlt. rewrite K1 in Hlt.
          exists rs, now, []. split; [done|]. split.
          * intros before u m loads after E Hc Hs. assert (Hu : u <= u0) by (apply (K5 u0 Hin); exists before, m, loads, after; done). lia.
          * rewrite Er. apply K3, K2. eauto.
      - replace h with (h ++ []) by apply app_nil_r. eapply kept_quiet; try done; rewrite ?app_nil_r; auto. }
  all: match type of Ht with in_time (_ ++ [PRound _ ?e]) => destruct (p_step_did now e p h Hst) as (p' & out & Hd & Es) end; rewrite Es in *; cbn [fst snd] in *; inversion Hd; subst; pp; try congruence.
  all: try (eapply kept_quiet; [eassumption|reflexivity|..]; rewrite ?app_nil_r, ?provided_app; cbn; auto; done).
  all: pose proof K as [K1 K2 K3 K4 K5 K6].
  - destruct (decide (f0 = f)) as [-> |Hne].
    + split; pp; rewrite ?lookup_delete; auto.
      * split; intros [? ?]; discriminate.
      * intros [? ?]; discriminate.
      * intros c0. rewrite provided_app. cbn. rewrite String.eqb_refl. discriminate.
      * discriminate.
      * intros Hdm. apply found_snoc. auto.
    + eapply kept_quiet; [exact K|reflexivity|..]; rewrite ?provided_app; pp; rewrite ?lookup_delete_ne by done; cbn;
        rewrite ?(proj2 (String.eqb_neq f0 f)) by done; auto.
  - destruct (decide (task_function k = f)) as [Ef|Hne].
    + subst f. split; pp; auto.
      * rewrite lookup_insert. split; intros _; [eauto|]. match goal with E : c_functions p !! _ = Some _ |- _ => rewrite E end. eauto.
      * rewrite provided_app. cbn. auto.
      * intros c0 _ Hn. congruence.
      * intros u0. rewrite lookup_insert. intros [= <-] u Hu. by eapply uses_le.
      * intros Hdm. apply found_snoc. auto.
    + eapply kept_quiet; [exact K|..]; rewrite ?provided_app; pp; rewrite ?lookup_insert_ne by done; cbn; auto. by apply String.eqb_neq.
  - destruct (decide (task_function k = f)) as [Ef|Hne].
    + subst f. assert (Hn : c_since p !! task_function k = None).
      { destruct (c_since p !! task_function k) eqn:E; [|done]. destruct (proj2 K2) as [? ?]; [eauto|congruence]. }
      split; pp; auto.
      * rewrite provided_app. cbn. auto.
      * intros c0. rewrite provided_app. cbn. intros Hp Hn'. apply lost_snoc. eauto.
      * congruence.
      * intros Hdm. apply found_snoc. auto.
    + eapply kept_quiet; [exact K|..]; rewrite ?provided_app; pp; cbn; auto. by apply String.eqb_neq.
  - destruct (decide (f0 = f)) as [-> |Hne].
    + split; pp; rewrite ?lookup_insert; auto.
      * split; eauto.
      * rewrite provided_app. cbn. rewrite String.eqb_refl. eauto.
      * discriminate.
      * intros u0 [= <-] u Hu. by eapply uses_le.
      * intros Hdm. apply found_snoc. auto.
    + eapply kept_quiet; [exact K|..]; rewrite ?provided_app; pp; rewrite ?lookup_insert_ne by done; cbn; rewrite ?(proj2 (String.eqb_neq f0 f)) by done; auto.
  - eapply kept_quiet; [exact K|..]; rewrite ?provided_app; cbn; auto; destruct m; try done; destruct type; try done; auto.
  - rewrite app_nil_r in *. split; auto.
    + intros c Hc Hn. apply lost_snoc. eauto.
    + intros u0 Hu u [Hus|(m0 & l & E & Hc & Hs)]%uses_snoc; [eauto|]. exfalso. apply Hs. rewrite exec_snoc, Er, Es. done.
    + intros Hdm. apply found_snoc. auto.
  - rewrite app_nil_r in *. destruct (decide (task_function k = f)) as [Ef|Hne].
    + subst f. split; pp; auto.
      * rewrite lookup_insert. split; intros _; [eauto|]. match goal with E : c_functions p !! _ = Some _ |- _ => rewrite E end. eauto.
      * intros c0 _ Hn. congruence.
      * intros u0. rewrite lookup_insert. intros [= <-] u Hu. by eapply uses_le.
      * intros Hdm. apply found_snoc. auto.
    + replace h with (h ++ []) by apply app_nil_r. eapply kept_quiet; [exact K|..]; rewrite ?app_nil_r; pp; rewrite ?lookup_insert_ne by done; cbn; auto.
Qed.

Lemma kept_run r f rs : in_time rs → c_main (p_exec r rs).1 ≠ Stopped → kept r f rs (p_exec r rs).1 (p_exec r rs).2.
Proof.
  induction rs as [|[now e] rs IH] using rev_ind; intros Ht Hs.
  - split; cbn; rewrite ?lookup_empty; [done|split; intros [? ?]; discriminate|intros [? ?]; discriminate|done|done|by intros ?%elem_of_nil].
  - rewrite exec_snoc in *. destruct (p_exec r rs) as [p h] eqn:E. cbn [fst snd] in IH.
    assert (Hp : c_main p ≠ Stopped) by (intros Hp; apply Hs; unfold p_step; rewrite Hp; done).
    apply kept_step; auto. apply IH; [by eapply in_time_app|done].
Qed.

Theorem requested_again r rs now k c loads : in_time rs → let h := (p_exec r rs).2 in let f := task_function k in
  provided f h = Some c → POut (MFunctionRequest FnRequest f "" "") ∈ drop (length h) (p_exec r (rs ++ [PRound now (PMsg (MTask k) loads)])).2 →
  ∃ rs1 s rs2 d rs3, rs = rs1 ++ PRound s PScan :: rs2 ++ PRound d PDelete :: rs3 ∧ idle r rs1 f s ∧ is_Some (provided f (p_exec r rs1).2).
Proof.
  intros Ht h f Hp. rewrite exec_snoc. subst h. pose proof (kept_run r f rs Ht) as K. destruct (p_exec r rs) as [p h] eqn:E. cbn [fst snd] in *.
  unfold p_step. cbn [pr_now pr_event]. destruct (c_main p) eqn:Em; try (cbn [snd]; rewrite drop_all; by intros ?%elem_of_nil).
  specialize (K ltac:(discriminate)). cbn [p_receive]. unfold pc_get. fold f. destruct (c_functions p !! f) as [c'|] eqn:Ef; cbn [snd].
  - rewrite drop_app. intros [|]%elem_of_cons; [done|]. by apply elem_of_nil in H.
  - intros _. apply (kp_none _ _ _ _ _ K c Hp Ef).
Qed.

(** ** Idle functions are forgotten *)

Definition looks (r : Z) (rs : list pround) (f : bytes) (u : Z) : Prop :=
  ∃ before after k, rs = before ++ PRound u PLook :: after ∧ outstanding (p_exec r before).2 = Some k ∧ task_function k = f.
Lemma uses_later r rs f x u : uses r rs f u → uses r (rs ++ [x]) f u.
Proof. intros (before & m & loads & after & -> & H). exists before, m, loads, (after ++ [x]). by rewrite <- app_assoc. Qed.
Lemma looks_later r rs f x u : looks r rs f u → looks r (rs ++ [x]) f u.
Proof. intros (before & after & k & -> & H). exists before, (after ++ [x]), k. by rewrite <- app_assoc. Qed.
Lemma uses_now r rs f u m loads : concerns f m = true → seen r rs (PRound u (PMsg m loads)) → uses r (rs ++ [PRound u (PMsg m loads)]) f u.
Proof. intros. exists rs, m, loads, []. done. Qed.
Lemma looks_now r rs f u k : outstanding (p_exec r rs).2 = Some k → task_function k = f → looks r (rs ++ [PRound u PLook]) f u.
Proof. intros. exists rs, [], k. done. Qed.

Record dated (r : Z) (rs : list pround) (p : processor) : Prop := {
  dt_since f u : c_since p !! f = Some u → uses r rs f u ∨ looks r rs f u;
  dt_dom f : is_Some (c_functions p !! f) → is_Some (c_since p !! f);
  dt_size : (size (c_since p) <= length rs)%nat;
  dt_doomed : (length (c_doomed p) <= length rs)%nat }.

Lemma size_put (m : gmap bytes Z) f u n : (size m <= n)%nat → (size (<[f := u]> m) <= n + 1)%nat.
Proof. intros H. destruct (m !! f) eqn:E; [rewrite map_size_insert_Some by eauto; lia|rewrite map_size_insert_None by done; lia]. Qed.
Lemma size_drop (m : gmap bytes Z) f n : (size m <= n)%nat → (size (delete f m) <= n)%nat.
Proof. intros H. rewrite map_size_delete. destruct (m !! f); cbn; lia. Qed.
Lemma filter_short {A} (q : A → bool) l : (length (List.filter q l) <= length l)%nat.
Proof. induction l as [|x l IH]; cbn; [lia|]. destruct (q x); cbn; lia. Qed.

Lemma dated_step r rs now e p h : p_exec r rs = (p, h) → c_main p ≠ Stopped → pinv p h → dated r rs p →
  c_main (p_step (p, h) (PRound now e)).1 ≠ Stopped → dated r (rs ++ [PRound now e]) (p_step (p, h) (PRound now e)).1.
Proof.
  intros Er Hst I [D1 D2 D3 D4] Hst'.
  assert (Hl : length (rs ++ [PRound now e]) = (length rs + 1)%nat) by (by rewrite app_length).
  assert (Hold : ∀ f u, uses r rs f u ∨ looks r rs f u → uses r (rs ++ [PRound now e]) f u ∨ looks r (rs ++ [PRound now e]) f u)
    by (intros f u [H|H]; [left; by apply uses_later|right; by apply looks_later]).
  destruct e as [m loads| |o d| |].
  4:{ unfold p_step. cbn [pr_now pr_event]. assert (Ha : ∀ x : processor * list pentry, match c_main p with Stopped => (p, h) | _ => x end = x) by (intros x; destruct (c_main p); congruence).
      rewrite Ha. unfold p_scan. destruct (c_doomed p) eqn:Ed; cbn [fst]; split; pp; rewrite ?Hl; auto; try lia.
      - rewrite fmap_length. etransitivity; [apply filter_short|]. change (length (map_to_list (c_since p))) with (size (c_since p)). lia.
      - rewrite Ed. cbn [length] in *. lia. }
  all: match type of Hl with length (_ ++ [PRound _ ?e]) = _ => destruct (p_step_did now e p h Hst) as (p' & out & Hd & Es) end.
  all: assert (Hse : out ≠ [] → ∀ m loads, p_step (p, h) (PRound now (PMsg m loads)) = (p', h ++ out) → seen r rs (PRound now (PMsg m loads)))
    by (intros Ho m1 l1 E1 E2; rewrite exec_snoc, Er, E1 in E2; cbn in E2; apply Ho, (app_inv_head h); by rewrite app_nil_r).
  all: rewrite Es in *; cbn [fst snd] in *; inversion Hd; subst; pp; try congruence.
  all: try (split; pp; rewrite ?Hl; auto; lia).
  - split; pp; rewrite ?Hl; auto; try lia.
    + intros f0 u [_ Hu]%lookup_delete_Some. auto.
    + intros f0 [c0 [Hne Hc]%lookup_delete_Some]. rewrite lookup_delete_ne by done. eauto.
    + etransitivity; [apply size_drop; exact D3|lia].
  - split; pp; rewrite ?Hl; auto; try lia.
    + intros f0 u [[<- <-]|[Hne Hu]]%lookup_insert_Some; [|auto]. left. apply uses_now; [apply String.eqb_refl|]. apply Hse; [discriminate|exact Es].
    + intros f0 Hf. destruct (decide (task_function k = f0)) as [<- |Hne]; [rewrite lookup_insert; eauto|rewrite lookup_insert_ne by done; auto].
    + by apply size_put.
  - split; pp; rewrite ?Hl; auto; try lia.
    + intros f0 u [[<- <-]|[Hne Hu]]%lookup_insert_Some; [|auto]. left. apply uses_now; [apply String.eqb_refl|]. apply Hse; [discriminate|exact Es].
    + intros f0 Hf. destruct (decide (f = f0)) as [<- |Hne]; [rewrite lookup_insert; eauto|]. rewrite lookup_insert_ne in Hf by done. rewrite lookup_insert_ne by done. auto.
    + by apply size_put.
  - split; pp; rewrite ?Hl; auto; try lia.
    + intros f0 u [[<- <-]|[Hne Hu]]%lookup_insert_Some; [|auto]. right. apply (looks_now r rs _ now k); [|done]. rewrite Er. cbn.
      pose proof (q_state _ _ I) as Hq. unfold good_state in Hq. match goal with E : c_main p = Found _ |- _ => rewrite E in Hq end. tauto.
    + intros f0 Hf. destruct (decide (task_function k = f0)) as [<- |Hne]; [rewrite lookup_insert; eauto|rewrite lookup_insert_ne by done; auto].
    + by apply size_put.
  - match goal with E : c_doomed p = _ |- _ => rewrite E in D4 end. cbn in D4. split; pp; rewrite ?Hl; auto; try lia.
    + intros f0 u [_ Hu]%lookup_delete_Some. auto.
    + intros f0 [c0 [Hne Hc]%lookup_delete_Some]. rewrite lookup_delete_ne by done. eauto.
    + etransitivity; [apply size_drop; exact D3|lia].
Qed.

Lemma dated_run r rs : always one_by_one (p_exec r rs).2 → c_main (p_exec r rs).1 ≠ Stopped → dated r rs (p_exec r rs).1.
Proof.
  induction rs as [|[now e] rs IH] using rev_ind; intros Ho Hs.
  - split; cbn; try done; try lia. intros f [? H]. by rewrite lookup_empty in H.
  - rewrite exec_snoc in *. pose proof (pinv_run r rs) as I. destruct (p_exec r rs) as [p h] eqn:E. cbn [fst snd] in IH, I.
    assert (Hp : c_main p ≠ Stopped) by (intros Hp; apply Hs; unfold p_step; rewrite Hp; done).
    assert (Ho' : always one_by_one h) by (destruct (p_step_did now e p h Hp) as (p' & out & _ & Es); rewrite Es in Ho; by eapply always_inv).
    apply (dated_step r rs now e p h); auto.
Qed.

(** Cleaning. *)
Lemma clean_run n now p h : c_main p = Waiting → ∃ p', foldl p_step (p, h) (clean n now) = (p', h) ∧ c_main p' = Waiting ∧ c_doomed p' = drop n (c_doomed p) ∧ c_retention p' = c_retention p ∧
  (∀ f, (f ∈ take n (c_doomed p) → c_functions p' !! f = None) ∧ (c_functions p !! f = None → c_functions p' !! f = None)) ∧
  (∀ f u, c_since p' !! f = Some u → c_since p !! f = Some u) ∧ (∀ f, is_Some (c_functions p' !! f) → is_Some (c_since p !! f) → is_Some (c_since p' !! f)).
Proof.
  revert p. induction n as [|n IH]; intros p Hm.
  - exists p. cbn. rewrite drop_0. split; [done|]. split; [done|]. split; [done|]. split; [done|]. split; [|split; auto]. intros f. split; [by intros ?%elem_of_nil|done].
  - cbn [clean replicate foldl]. unfold p_step at 2. rewrite Hm. cbn [pr_event]. unfold p_delete. destruct (c_doomed p) as [|g rest] eqn:Ed.
    + destruct (IH p Hm) as (p' & H1 & H2 & H3 & H4 & H5 & H6). rewrite Ed in *. rewrite take_nil, drop_nil in *. exists p'. auto 10.
    + destruct (IH (pc_with (c_functions (pc_del g p)) (c_since (pc_del g p)) rest (c_task (pc_del g p)) (c_main (pc_del g p)) (pc_del g p)) Hm) as (p' & H1 & H2 & H3 & H4 & H5 & H6 & H7).
      pp. exists p'. split; [exact H1|]. split; [done|]. split; [done|]. split; [done|]. split; [|split].
      * intros f. destruct (H5 f) as [Ha Hb]. split.
        -- cbn. intros [-> |Hin]%elem_of_cons; [apply Hb, lookup_delete|auto].
        -- intros Hn. apply Hb. destruct (decide (g = f)) as [-> |Hne]; [apply lookup_delete|by rewrite lookup_delete_ne].
      * intros f u Hu. apply H6, lookup_delete_Some in Hu as [_ Hu]. exact Hu.
      * intros f Hf Hs. apply H7; [done|]. destruct (decide (g = f)) as [-> |Hne]; [|by rewrite lookup_delete_ne].
        destruct (H5 f) as [_ Hb]. rewrite Hb in Hf by apply lookup_delete. by destruct Hf.
Qed.

Theorem forgotten r rs s f n m t1 t2 now k loads : always one_by_one (p_exec r rs).2 → PStop ∉ (p_exec r rs).2 → outstanding (p_exec r rs).2 = None →
  idle r rs f s → not_looked_up r rs f s → (length rs <= n)%nat → (length rs <= m)%nat → task_function k = f →
  (p_exec r (rs ++ clean n t1 ++ [PRound s PScan] ++ clean m t2 ++ [PRound now (PMsg (MTask k) loads)])).2 =
  (p_exec r rs).2 ++ [PIn (MTask k); POut (MFunctionRequest FnRequest f "" "")].
Proof.
  intros Ho Hst Hout Hi Hl Hn Hm <-. rewrite stop_run in Hst. pose proof (dated_run r rs Ho Hst) as [D1 D2 D3 D4]. pose proof (pinv_run r rs Ho) as I.
  assert (Hr : c_retention (p_exec r rs).1 = r).
  { clear. apply (p_ind r (λ p h, c_retention p = r)); [done|]. intros now p h e p' out _ <- Hd. inversion Hd; subst; pp; try done. by destruct H1 as [-> | ->]. }
  unfold p_exec at 1. rewrite !foldl_app. fold (p_exec r rs). destruct (p_exec r rs) as [p h] eqn:E. cbn [fst snd] in *.
  assert (Hw : c_main p = Waiting).
  { pose proof (q_state _ _ I) as Hq. unfold good_state in Hq. destruct (c_main p); try done; destruct Hq as [Hq _]; congruence. }
  destruct (clean_run n t1 p h Hw) as (p1 & E1 & W1 & D1' & R1 & F1 & S1 & T1). rewrite E1. rewrite drop_ge in D1' by lia.
  cbn [foldl]. unfold p_step at 3. rewrite W1. cbn [pr_event pr_now]. unfold p_scan. rewrite D1'.
  set (doomed := fst <$> _). set (p2 := pc_with _ _ doomed _ _ p1).
  assert (Hlen : (length doomed <= m)%nat).
  { unfold doomed. rewrite fmap_length. etransitivity; [apply filter_short|]. change (length (map_to_list (c_since p1))) with (size (c_since p1)).
    assert (Hsub : c_since p1 ⊆ c_since p) by (apply map_subseteq_spec; auto). assert (Hsz : (size (c_since p1) <= size (c_since p))%nat) by (rewrite <- !size_dom; apply subseteq_size, subseteq_dom; assumption). lia. }
  destruct (clean_run m t2 p2 h W1) as (p3 & E3 & W3 & D3' & R3 & F3 & S3 & T3). rewrite E3. cbn [foldl]. unfold p_step. rewrite W3. cbn [pr_event pr_now p_receive].
  assert (Hno : c_functions p3 !! task_function k = None).
  { destruct (F3 (task_function k)) as [Fa Fb]. destruct (c_functions p1 !! task_function k) as [c|] eqn:Ec; [|by apply Fb].
    apply Fa. change (c_doomed p2) with doomed. rewrite take_ge by lia. 
    assert (Hs : is_Some (c_since p1 !! task_function k)).
    { apply T1; [eauto|]. apply D2. destruct (c_functions p !! task_function k) eqn:Ep; [eauto|]. destruct (F1 (task_function k)) as [_ Fn]. rewrite Fn in Ec; done. }
    destruct Hs as [u Hu]. apply elem_of_list_fmap. exists (task_function k, u). split; [done|].
    apply elem_of_list_In, filter_In. split; [by apply elem_of_list_In, elem_of_map_to_list|]. cbn. apply Z.ltb_lt. rewrite R1, Hr.
    destruct (D1 _ _ (S1 _ _ Hu)) as [(before & m0 & l0 & after & Eq & Hc & Hse)|(before & after & k0 & Eq & Hk & Hf)]; [by eapply Hi|by eapply Hl]. }
  unfold pc_get. rewrite Hno. reflexivity.
Qed.
