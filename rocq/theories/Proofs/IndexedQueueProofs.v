(** Proofs about the IndexedQueue model: refinement of the pointer structure to
    a list, by a segment predicate over the node store. *)

From Verif.Model Require Import Base IndexedQueue.
From Verif.Spec Require Import QueueSpec.

Section proofs.
Context {A : Type} (hash : A -> Z).
Implicit Types (st : gmap nat (node A)) (ls : list (nat * A)).

Definition hd_loc ls (d : option nat) : option nat :=
  match ls with [] => d | (x, _) :: _ => Some x end.

Definition last_loc ls (d : option nat) : option nat :=
  match last ls with Some (x, _) => Some x | None => d end.

(** [ls] oldest first; [next] points to the older neighbour, [prev] to the newer. *)
Fixpoint seg st (nxt : option nat) ls (prv : option nat) : Prop :=
  match ls with
  | [] => True
  | (x, a) :: r => st !! x = Some (Node a (hd_loc r prv) nxt) ∧ seg st (Some x) r prv
  end.

Lemma hd_loc_app l1 l2 d : hd_loc (l1 ++ l2) d = hd_loc l1 (hd_loc l2 d).
Proof. destruct l1 as [|[x a] l1]; reflexivity. Qed.

Lemma last_loc_cons p l d : last_loc (p :: l) d = last_loc l (Some (fst p)).
Proof.
  unfold last_loc. destruct p as [x a]. destruct l as [|y l]; [reflexivity|].
  rewrite last_cons_cons. destruct (last (y :: l)) as [[z b]|] eqn:E; [reflexivity|].
  apply last_None in E; discriminate.
Qed.

Lemma last_loc_snoc l p d : last_loc (l ++ [p]) d = Some (fst p).
Proof. unfold last_loc. rewrite last_snoc. destruct p; reflexivity. Qed.

Lemma seg_app st n l1 l2 p :
  seg st n (l1 ++ l2) p ↔ seg st n l1 (hd_loc l2 p) ∧ seg st (last_loc l1 n) l2 p.
Proof.
  revert n; induction l1 as [|[x a] l1 IH]; intros n; cbn [seg app].
  - unfold last_loc; cbn. tauto.
  - rewrite IH, hd_loc_app, last_loc_cons; cbn [fst]. tauto.
Qed.

Lemma seg_frame st st' n ls p :
  (∀ x, x ∈ ls.*1 → st' !! x = st !! x) → seg st n ls p → seg st' n ls p.
Proof.
  revert n; induction ls as [|[x a] ls IH]; intros n Hst; cbn [seg]; [tauto|].
  intros [Hx Hs]. split.
  - rewrite Hst; [exact Hx|]. cbn. left.
  - apply IH; [|exact Hs]. intros y Hy; apply Hst; cbn; right; exact Hy.
Qed.

(** Changing what the segment's newest node points to. *)
Lemma seg_set_prev st n ls x a p p' :
  NoDup (ls ++ [(x, a)]).*1 →
  seg st n (ls ++ [(x, a)]) p →
  seg (alter (set_prev p') x st) n (ls ++ [(x, a)]) p'.
Proof.
  intros Hnd Hs. apply seg_app in Hs as [H1 H2]. apply seg_app.
  rewrite fmap_app in Hnd. apply NoDup_app in Hnd as (Hnd1 & Hd & _).
  split.
  - cbn [hd_loc] in *. eapply seg_frame; [|exact H1].
    intros y Hy. apply lookup_alter_ne. intros <-. apply (Hd x Hy). cbn. left.
  - cbn [seg] in *. destruct H2 as [H2 _]. split; [|exact I].
    rewrite lookup_alter, H2. reflexivity.
Qed.

Lemma seg_set_next st n n' x a ls p :
  NoDup ((x, a) :: ls).*1 →
  seg st n ((x, a) :: ls) p →
  seg (alter (set_next n') x st) n' ((x, a) :: ls) p.
Proof.
  intros Hnd [H1 H2]. cbn [fmap list_fmap] in Hnd. apply NoDup_cons in Hnd as [Hx _].
  split.
  - rewrite lookup_alter, H1. reflexivity.
  - eapply seg_frame; [|exact H2]. intros y Hy. apply lookup_alter_ne.
    intros <-. exact (Hx Hy).
Qed.

Record rep (q : iq A) ls : Prop := Rep {
  rep_seg   : seg (q_store q) None ls None;
  rep_tail  : q_tail q = hd_loc ls None;
  rep_head  : q_head q = last_loc ls None;
  rep_size  : q_size q = Z.of_nat (length ls);
  rep_nodup : NoDup (ls.*1);
  rep_hash  : NoDup (hash <$> ls.*2);
  rep_fresh : ∀ x, (q_fresh q <= x)%nat → q_store q !! x = None;
  rep_map   : ∀ h x, q_map q !! h = Some x ↔ ∃ a, (x, a) ∈ ls ∧ hash a = h }.

Lemma seg_dom st n ls p x a : seg st n ls p → (x, a) ∈ ls → is_Some (st !! x).
Proof.
  revert n; induction ls as [|[y b] ls IH]; intros n Hs Hin.
  - inversion Hin.
  - cbn [seg] in Hs. destruct Hs as [H1 H2]. apply elem_of_cons in Hin as [E|Hin].
    + injection E as -> ->. eauto.
    + eapply IH; eauto.
Qed.

Lemma rep_empty : rep iq_empty [].
Proof.
  split; cbn; auto; try constructor.
  - rewrite lookup_empty. discriminate.
  - intros (a & H & _). inversion H.
Qed.

Lemma rep_contains q ls a :
  rep q ls → iq_contains hash q a = existsb (λ b, Z.eqb (hash a) (hash b)) ls.*2.
Proof.
  intros R. unfold iq_contains. apply eq_true_iff_eq. rewrite bool_decide_eq_true, existsb_exists.
  split.
  - intros [x Hx]. apply (rep_map _ _ R) in Hx as (b & Hb & E). exists b. split.
    + apply elem_of_list_In. apply elem_of_list_fmap. exists (x, b); auto.
    + lia.
  - intros (b & Hb & E). apply elem_of_list_In, elem_of_list_fmap in Hb as ([x c] & -> & Hin).
    exists x. apply (rep_map _ _ R). exists c. cbn in *. split; [exact Hin|]. lia.
Qed.

Lemma rep_map_none q ls a :
  rep q ls → existsb (λ b, Z.eqb (hash a) (hash b)) ls.*2 = false → q_map q !! hash a = None.
Proof.
  intros R E. rewrite <- (rep_contains _ _ _ R) in E. unfold iq_contains in E.
  apply bool_decide_eq_false in E. destruct (q_map q !! hash a) as [x|] eqn:Ex; [|reflexivity].
  exfalso. apply E. eauto.
Qed.

Lemma rep_map_some q ls a :
  rep q ls → existsb (λ b, Z.eqb (hash a) (hash b)) ls.*2 = true →
  ∃ x b l1 l2, q_map q !! hash a = Some x ∧ hash b = hash a ∧ ls = l1 ++ (x, b) :: l2.
Proof.
  intros R E. rewrite <- (rep_contains _ _ _ R) in E. unfold iq_contains in E.
  apply bool_decide_eq_true in E as [x Hx].
  pose proof Hx as Hx'. apply (rep_map _ _ R) in Hx' as (b & Hin & Hh).
  apply elem_of_list_split in Hin as (l1 & l2 & ->). eauto 10.
Qed.

(** put *)
Lemma rep_put q ls a :
  rep q ls →
  existsb (λ b, Z.eqb (hash a) (hash b)) ls.*2 = false →
  ∃ q' x, iq_put hash q a = Ok q' ∧ rep q' (ls ++ [(x, a)]).
Proof.
  intros R E. pose proof (rep_map_none _ _ _ R E) as Hn.
  unfold iq_put. rewrite Hn. eexists _, (q_fresh q). split; [reflexivity|].
  destruct R as [Hseg Htail Hhead Hsize Hnd Hh Hfr Hmap].
  destruct q as [st fr hd tl sz mp]; cbn in *.
  assert (Hnew : fr ∉ ls.*1).
  { intros Hin. apply elem_of_list_fmap in Hin as ([y b] & -> & Hin). cbn in *.
    destruct (seg_dom _ _ _ _ _ _ Hseg Hin) as [n Hn']. rewrite Hfr in Hn'; [discriminate|lia]. }
  assert (Hnew' : ∀ y, y ∈ ls.*1 → <[fr:=Node a None None]> st !! y = st !! y).
  { intros y Hy. apply lookup_insert_ne. intros <-. exact (Hnew Hy). }
  assert (Hnd' : NoDup (ls ++ [(fr, a)]).*1).
  { rewrite fmap_app. apply NoDup_app. split; [exact Hnd|]. split.
    - intros y Hy Hy'. cbn in Hy'. apply elem_of_list_singleton in Hy'. subst. exact (Hnew Hy).
    - cbn. apply NoDup_singleton. }
  assert (Hh' : NoDup (hash <$> (ls ++ [(fr, a)]).*2)).
  { rewrite !fmap_app. apply NoDup_app. split; [exact Hh|]. split; [|cbn; apply NoDup_singleton].
    intros h Hin Hin'. cbn in Hin'. apply elem_of_list_singleton in Hin'. subst.
    apply elem_of_list_fmap in Hin as (b & Eb & Hb).
    assert (existsb (λ b, Z.eqb (hash a) (hash b)) ls.*2 = true) as Ht.
    { apply existsb_exists. exists b. split; [apply elem_of_list_In; exact Hb|lia]. }
    rewrite E in Ht. discriminate. }
  assert (Hmap' : ∀ h x, <[hash a:=fr]> mp !! h = Some x ↔
                          ∃ b, (x, b) ∈ ls ++ [(fr, a)] ∧ hash b = h).
  { intros h x. rewrite lookup_insert_Some. setoid_rewrite elem_of_app.
    setoid_rewrite elem_of_list_singleton. split.
    - intros [[<- <-]|[Hne Hx]]; [eauto|]. apply Hmap in Hx as (b & Hb & <-). eauto.
    - intros (b & [Hb|Heq] & <-).
      + right. split.
        * intros Heq. rewrite Heq in Hn. assert (mp !! hash b = Some x) by (apply Hmap; eauto). congruence.
        * apply Hmap. eauto.
      + injection Heq as -> ->. auto. }
  destruct (last ls) as [[h b]|] eqn:El.
  - (* non empty *)
    apply last_Some in El as [ls' ->].
    unfold last_loc in Hhead. rewrite last_snoc in Hhead. subst hd. cbn.
    assert (Hne : fr ≠ h).
    { intros <-. apply Hnew. rewrite fmap_app. apply elem_of_app. right. cbn. left. }
    split; cbn; auto.
    + apply seg_app. split.
      * apply (seg_set_prev _ _ _ _ _ None); [exact Hnd|]. eapply seg_frame; [|exact Hseg].
        intros y Hy. rewrite lookup_alter_ne; [auto|]. intros <-. exact (Hnew Hy).
      * rewrite last_loc_snoc. cbn. split; [|exact I].
        rewrite lookup_alter_ne by congruence. rewrite lookup_alter, lookup_insert. reflexivity.
    + rewrite hd_loc_app. rewrite Htail. rewrite !hd_loc_app. destruct ls' as [|[? ?] ?]; reflexivity.
    + rewrite last_loc_snoc. reflexivity.
    + rewrite Hsize, !app_length. cbn. lia.
    + intros x Hx. assert (x ≠ h).
      { intros ->. destruct (seg_dom _ _ _ _ h b Hseg) as [n Hn'].
        { apply elem_of_app; right; left. }
        rewrite Hfr in Hn'; [discriminate|lia]. }
      rewrite !lookup_alter_ne, lookup_insert_ne by lia. apply Hfr. lia.
  - apply last_None in El. subst ls. cbn in Hhead, Htail. subst hd tl. cbn.
    split; cbn; auto.
    + split; [apply lookup_insert|exact I].
    + rewrite Hsize. reflexivity.
    + intros x Hx. rewrite lookup_insert_ne by lia. apply Hfr. lia.
Qed.

(** get *)
Lemma rep_get q x a ls :
  rep q ((x, a) :: ls) → ∃ q', iq_get hash q = Ok (q', a) ∧ rep q' ls.
Proof.
  intros [Hseg Htail Hhead Hsize Hnd Hh Hfr Hmap].
  destruct q as [st fr hd tl sz mp]; cbn in *. subst tl.
  destruct Hseg as [Hx Hseg].
  unfold iq_get, remove_tail; cbn. rewrite Hx; cbn.
  apply NoDup_cons in Hnd as [Hxn Hnd]. apply NoDup_cons in Hh as [Han Hh].
  assert (Hm : mp !! hash a = Some x) by (apply Hmap; exists a; split; [left|reflexivity]).
  assert (Hmap' : ∀ h y, delete (hash a) mp !! h = Some y ↔ ∃ b, (y, b) ∈ ls ∧ hash b = h).
  { intros h y. rewrite lookup_delete_Some, Hmap. split.
    - intros [Hne (b & Hb & <-)]. apply elem_of_cons in Hb as [Heq|Hb]; [|eauto].
      injection Heq as -> ->. congruence.
    - intros (b & Hb & <-). split.
      + intros Heq. apply Han. rewrite Heq. apply elem_of_list_fmap. exists b. split; [reflexivity|].
        apply elem_of_list_fmap. exists (y, b); auto.
      + exists b. split; [right; exact Hb|reflexivity]. }
  destruct ls as [|[y b] ls]; cbn.
  - cbn. rewrite Hm. eexists. split; [reflexivity|].
    split; cbn; auto; try constructor. rewrite Hsize. cbn. lia.
    all: apply Hmap'.
  - rewrite Hm. eexists. split; [reflexivity|].
    split; cbn; auto.
    + eapply (seg_set_next _ (Some x)); [exact Hnd|exact Hseg].
    + rewrite Hsize. cbn. lia.
    + intros z Hz. assert (z ≠ y).
      { intros ->. destruct (seg_dom _ _ _ _ y b Hseg) as [n Hn']; [left|].
        rewrite Hfr in Hn'; [discriminate|lia]. }
      rewrite lookup_alter_ne by congruence. apply Hfr. lia.
Qed.

Lemma rep_get_empty q : rep q [] → iq_get hash q = Raise QueueEmpty.
Proof. intros [_ Ht _ _ _ _ _ _]. unfold iq_get, remove_tail. rewrite Ht. reflexivity. Qed.

(** remove *)
Lemma rep_remove q l1 x b l2 a :
  rep q (l1 ++ (x, b) :: l2) → hash b = hash a →
  ∃ q', iq_remove hash q a = Ok q' ∧ rep q' (l1 ++ l2).
Proof.
  intros [Hseg Htail Hhead Hsize Hnd Hh Hfr Hmap] Hba.
  destruct q as [st fr hd tl sz mp]; cbn in *.
  assert (Hm : mp !! hash a = Some x).
  { apply Hmap. exists b. split; [|exact Hba]. apply elem_of_app; right; left. }
  assert (Hdom : ∀ y c, (y, c) ∈ l1 ++ (x, b) :: l2 → (y < fr)%nat).
  { intros y c Hy. destruct (seg_dom _ _ _ _ _ _ Hseg Hy) as [n Hn].
    destruct (decide (y < fr)%nat) as [?|Hge]; [assumption|]. rewrite Hfr in Hn; [discriminate|lia]. }
  apply seg_app in Hseg as [Hseg1 [Hx Hseg2]].
  rewrite fmap_app in Hnd. cbn in Hnd.
  apply NoDup_app in Hnd as (Hnd1 & Hd & Hnd2). apply NoDup_cons in Hnd2 as [Hx2 Hnd2].
  assert (Hx1 : x ∉ l1.*1) by (intros Hin; apply (Hd x Hin); left).
  assert (Hd12 : ∀ y, y ∈ l1.*1 → y ∉ l2.*1) by (intros y H1 H2; apply (Hd y H1); right; exact H2).
  rewrite !fmap_app in Hh. cbn in Hh.
  apply NoDup_app in Hh as (Hh1 & Hhd & Hh2). apply NoDup_cons in Hh2 as [Hb2 Hh2].
  assert (Hb1 : hash b ∉ hash <$> l1.*2) by (intros Hin; apply (Hhd _ Hin); left).
  assert (HndF : NoDup ((l1 ++ l2).*1)).
  { rewrite fmap_app. apply NoDup_app. auto. }
  assert (HhF : NoDup (hash <$> (l1 ++ l2).*2)).
  { rewrite !fmap_app. apply NoDup_app. repeat split; auto.
    intros h H1 H2. apply (Hhd h H1). right. exact H2. }
  assert (HmapF : ∀ h y, delete (hash a) mp !! h = Some y ↔ ∃ c, (y, c) ∈ l1 ++ l2 ∧ hash c = h).
  { intros h y. rewrite lookup_delete_Some, Hmap. split.
    - intros [Hne (c & Hc & <-)]. exists c. split; [|reflexivity].
      apply elem_of_app in Hc as [Hc|Hc]; [apply elem_of_app; auto|].
      apply elem_of_cons in Hc as [Heq|Hc]; [|apply elem_of_app; auto].
      injection Heq as -> ->. congruence.
    - intros (c & Hc & <-). split.
      + rewrite <- Hba. intros Heq. apply elem_of_app in Hc as [Hc|Hc].
        * apply Hb1. rewrite Heq. apply elem_of_list_fmap. exists c; split; [reflexivity|].
          apply elem_of_list_fmap. exists (y, c); auto.
        * apply Hb2. rewrite Heq. apply elem_of_list_fmap. exists c; split; [reflexivity|].
          apply elem_of_list_fmap. exists (y, c); auto.
      + exists c. split; [|reflexivity]. apply elem_of_app in Hc as [Hc|Hc]; apply elem_of_app;
        [left; exact Hc|right; right; exact Hc]. }
  unfold iq_remove; cbn. rewrite Hm. unfold list_remove; cbn. rewrite Hx; cbn.
  destruct l2 as [|[y c] l2]; cbn [hd_loc].
  - (* x is the newest *)
    destruct (last l1) as [[z d]|] eqn:El.
    + apply last_Some in El as [l1' ->]. rewrite last_loc_snoc; cbn [fst].
      rewrite last_loc_snoc in Hx. cbn in Hx.
      (* prev = None, next = Some z *)
      rewrite bool_decide_eq_true_2.
      2:{ rewrite Hhead. rewrite last_loc_snoc. reflexivity. }
      eexists; split; [reflexivity|]. rewrite app_nil_r in *.
      split; cbn; auto.
      * eapply seg_set_prev; [exact Hnd1|exact Hseg1].
      * rewrite Htail. rewrite !hd_loc_app. destruct l1' as [|[? ?] ?]; reflexivity.
      * rewrite last_loc_snoc. reflexivity.
      * rewrite Hsize, !app_length. cbn. lia.
      * intros w Hw. rewrite lookup_alter_ne; [apply Hfr; lia|]. intros <-.
        specialize (Hdom z d). assert (z < fr)%nat; [|lia]. apply Hdom.
        rewrite !elem_of_app. left; right; left.
    + apply last_None in El. subst l1. cbn in *.
      rewrite Hhead, Htail. cbn. rewrite bool_decide_eq_true_2 by reflexivity. cbn.
      eexists; split; [reflexivity|]. split; cbn; auto; try constructor.
      rewrite Hsize; cbn; lia.
      all: apply HmapF.
  - destruct (last l1) as [[z d]|] eqn:El.
    + (* middle *)
      apply last_Some in El as [l1' ->]. rewrite last_loc_snoc; cbn [fst].
      eexists; split; [reflexivity|].
      assert (Hyz : y ≠ z).
      { intros ->. apply (Hd12 z); [rewrite fmap_app; apply elem_of_app; right; left|left]. }
      split; cbn; auto.
      * apply seg_app. split.
        -- cbn [hd_loc]. eapply seg_frame; [|eapply seg_set_prev; [exact Hnd1|exact Hseg1]].
           intros w Hw.
           assert (w ≠ y) by (intros ->; apply (Hd12 y Hw); left).
           destruct (decide (w = z)) as [->|Hwz].
           ++ rewrite !lookup_alter, lookup_alter_ne by congruence. reflexivity.
           ++ rewrite !lookup_alter_ne by congruence. reflexivity.
        -- rewrite last_loc_snoc. cbn [fst].
           eapply seg_frame; [|eapply (seg_set_next _ (Some x)); [exact Hnd2|exact Hseg2]].
           intros w Hw. rewrite lookup_alter_ne; [reflexivity|].
           intros <-. apply (Hd12 z); [rewrite fmap_app; apply elem_of_app; right; left|exact Hw].
      * rewrite Htail. rewrite !hd_loc_app. destruct l1' as [|[? ?] ?]; reflexivity.
      * rewrite Hhead. unfold last_loc. rewrite !last_app, !last_cons. 
        destruct (last l2) as [[? ?]|]; reflexivity.
      * rewrite Hsize, !app_length. cbn. lia.
      * intros w Hw.
        assert (z < fr)%nat by (apply (Hdom z d); rewrite !elem_of_app; left; right; left).
        assert (y < fr)%nat by (apply (Hdom y c); rewrite !elem_of_app; right; right; left).
        rewrite !lookup_alter_ne by lia. apply Hfr; lia.
    + apply last_None in El. subst l1. cbn in *.
      rewrite Htail. rewrite bool_decide_eq_true_2 by reflexivity.
      eexists; split; [reflexivity|]. split; cbn; auto.
      * eapply (seg_set_next _ (Some x)); [exact Hnd2|exact Hseg2].
      * rewrite Hsize. cbn. lia.
      * intros w Hw.
        assert (y < fr)%nat by (apply (Hdom y c); right; left).
        rewrite !lookup_alter_ne by lia. apply Hfr; lia.
Qed.

(** One call: same answer as the list, and the relation is kept. *)
Definition same_hash (a b : A) : bool := Z.eqb (hash a) (hash b).

Lemma filter_out_one (l1 : list (nat * A)) x b l2 a :
  hash b = hash a → NoDup (hash <$> (l1 ++ (x, b) :: l2).*2) →
  List.filter (λ c, negb (same_hash a c)) (l1 ++ (x, b) :: l2).*2 = (l1 ++ l2).*2.
Proof.
  intros Hba Hnd. rewrite !fmap_app in Hnd. cbn in Hnd.
  apply NoDup_app in Hnd as (H1 & Hd & H2). apply NoDup_cons in H2 as [Hb2 H2].
  assert (Hk : ∀ l : list A, hash b ∉ hash <$> l →
            List.filter (λ c, negb (same_hash a c)) l = l).
  { induction l as [|c l IH]; intros Hn; [reflexivity|]. cbn in *.
    apply not_elem_of_cons in Hn as [Hc Hn]. unfold same_hash at 1.
    destruct (Z.eqb_spec (hash a) (hash c)); [congruence|]. cbn. f_equal. auto. }
  rewrite !fmap_app, List.filter_app. cbn.
  unfold same_hash at 2. rewrite Hba, Z.eqb_refl. cbn.
  rewrite !Hk; auto. intros Hin. apply (Hd _ Hin). left.
Qed.

Lemma call_refines q ls c :
  rep q ls →
  ∃ ls', rep (iq_call hash q c).1 ls' ∧
         fifo_call same_hash ls.*2 c = (ls'.*2, (iq_call hash q c).2).
Proof.
  intros R. destruct c as [a| |a|a|]; cbn.
  - destruct (existsb (same_hash a) ls.*2) eqn:E.
    + destruct (rep_map_some _ _ _ R E) as (x & b & l1 & l2 & Hm & Hb & ->).
      unfold iq_put. rewrite Hm. eexists; split; [exact R|reflexivity].
    + destruct (rep_put _ _ _ R E) as (q' & x & -> & R').
      eexists; split; [exact R'|]. rewrite fmap_app. reflexivity.
  - destruct ls as [|[x a] ls].
    + rewrite (rep_get_empty _ R). eexists; split; [exact R|reflexivity].
    + destruct (rep_get _ _ _ _ R) as (q' & -> & R'). eexists; split; [exact R'|reflexivity].
  - destruct (existsb (same_hash a) ls.*2) eqn:E.
    + destruct (rep_map_some _ _ _ R E) as (x & b & l1 & l2 & Hm & Hb & ->).
      destruct (rep_remove _ _ _ _ _ a R Hb) as (q' & -> & R').
      eexists; split; [exact R'|].
      cbn. rewrite (filter_out_one _ _ _ _ _ Hb (rep_hash _ _ R)). reflexivity.
    + unfold iq_remove. rewrite (rep_map_none _ _ _ R E). eexists; split; [exact R|reflexivity].
  - eexists; split; [exact R|]. rewrite (rep_contains _ _ _ R). reflexivity.
  - eexists; split; [exact R|]. unfold iq_len. rewrite (rep_size _ _ R), fmap_length. reflexivity.
Qed.

Lemma calls_refine ops q ls :
  rep q ls → run_calls (iq_call hash) q ops = run_calls (fifo_call same_hash) ls.*2 ops.
Proof.
  revert q ls; induction ops as [|c ops IH]; intros q ls R; [reflexivity|].
  cbn [run_calls]. destruct (call_refines q ls c R) as (ls' & R' & ->).
  destruct (iq_call hash q c) as [q' r]; cbn in *. f_equal. apply IH. exact R'.
Qed.

Lemma queue_by_hash ops :
  run_calls (iq_call hash) iq_empty ops = run_calls (fifo_call same_hash) [] ops.
Proof. exact (calls_refine ops _ [] rep_empty). Qed.

End proofs.

Lemma fifo_same_hash {A} `{EqDecision A} (hash : A -> Z) ops l :
  Inj (=) (=) hash →
  run_calls (fifo_call (same_hash hash)) l ops = run_calls (fifo_call equal) l ops.
Proof.
  intros Hinj. assert (Heq : ∀ a b, same_hash hash a b = equal a b).
  { intros a b. unfold same_hash, equal. apply eq_true_iff_eq.
    rewrite Z.eqb_eq, bool_decide_eq_true. split; [apply Hinj|congruence]. }
  assert (Hex : ∀ a l, existsb (same_hash hash a) l = existsb (equal a) l).
  { intros a m. induction m as [|b m IHm]; cbn; [reflexivity|]. rewrite Heq, IHm. reflexivity. }
  assert (Hfi : ∀ a l, List.filter (λ b, negb (same_hash hash a b)) l
                       = List.filter (λ b, negb (equal a b)) l).
  { intros a m. apply List.filter_ext. intros b. rewrite Heq. reflexivity. }
  revert l; induction ops as [|c ops IH]; intros l; [reflexivity|].
  cbn [run_calls].
  assert (fifo_call (same_hash hash) l c = fifo_call equal l c) as ->.
  { destruct c; cbn; rewrite ?Hex, ?Hfi; reflexivity. }
  destruct (fifo_call equal l c). f_equal. apply IH.
Qed.

Lemma queue_fifo {A} `{EqDecision A} (hash : A -> Z) ops :
  Inj (=) (=) hash →
  run_calls (iq_call hash) iq_empty ops = run_calls (fifo_call equal) [] ops.
Proof. intros Hinj. rewrite queue_by_hash. apply fifo_same_hash. exact Hinj. Qed.
