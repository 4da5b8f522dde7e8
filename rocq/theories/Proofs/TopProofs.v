(** * Proofs about the monitor's tables *)

From Coq Require Import Ascii.
From stdpp Require Import list.
From Verif.Model Require Import Base Formatter Top.
From Verif.Spec Require Import FormatterSpec TopSpec.
From Verif.Proofs Require Import BaseProofs FormatterProofs.

(** ** Strings *)
Lemma length_append (a b : bytes) : String.length (a +:+ b) = (String.length a + String.length b)%nat.
Proof. induction a as [|x a IH]; [done|]. change (S (String.length (a +:+ b)) = S (String.length a + String.length b)). by rewrite IH. Qed.
Lemma length_chars s : length (chars s) = String.length s.
Proof. induction s as [|x s IH]; cbn; [done|by rewrite IH]. Qed.
Lemma chars_substring s : ∀ m n, chars (String.substring n m s) = take m (drop n (chars s)).
Proof.
  induction s as [|x s IH]; intros m n.
  - destruct n, m; cbn; done.
  - destruct n as [|n].
    + destruct m as [|m]; [done|]. cbn. by rewrite IH.
    + cbn. apply IH.
Qed.
Lemma length_spaces n : String.length (spaces n) = n.
Proof. induction n as [|n IH]; cbn; [done|by rewrite IH]. Qed.
Lemma truncate_short s n how : n <= 0 ∨ Z.of_nat (String.length s) <= n → truncate s n how = s.
Proof. intros H. unfold truncate. destruct (Z.leb_spec n 0); [done|]. destruct (Z.leb_spec (Z.of_nat (String.length s)) n); [done|lia]. Qed.
Lemma truncate_left s n : 0 < n < Z.of_nat (String.length s) → chars (truncate s n KeepLeft) = take (Z.to_nat n) (chars s) ++ ["+"%char].
Proof.
  intros H. unfold truncate. destruct (Z.leb_spec n 0); [lia|]. destruct (Z.leb_spec (Z.of_nat (String.length s)) n); [lia|].
  rewrite chars_app, chars_substring. by rewrite drop_0.
Qed.
Lemma truncate_right s n : 0 < n < Z.of_nat (String.length s) → chars (truncate s n KeepRight) = "+"%char :: drop (String.length s - Z.to_nat n) (chars s).
Proof.
  intros H. unfold truncate. destruct (Z.leb_spec n 0); [lia|]. destruct (Z.leb_spec (Z.of_nat (String.length s)) n); [lia|].
  rewrite chars_app, chars_substring. rewrite firstn_all2; [done|]. rewrite drop_length, length_chars. lia.
Qed.

(** ** Merging and concatenating *)
Lemma row_at_length w t i : rectangular w t → t ≠ [] → length (row_at t i) = w.
Proof.
  intros Hr Hne. unfold row_at. destruct (t !! i) as [r|] eqn:E.
  - eapply Forall_lookup_1 in Hr; [|exact E]. done.
  - rewrite replicate_length. destruct t as [|r t]; [done|]. apply Forall_cons_1 in Hr as [Hr _]. done.
Qed.
Lemma merge_eq l r pad : l ≠ [] → r ≠ [] → merge_tables l r pad =
  (λ i, row_at l i ++ (if String.eqb pad "" then [] else [CText pad]) ++ row_at r i) <$> seq 0 (Nat.max (length l) (length r)).
Proof. destruct l, r; done. Qed.
Lemma merge_length l r pad : l ≠ [] → r ≠ [] → length (merge_tables l r pad) = Nat.max (length l) (length r).
Proof. intros. rewrite merge_eq by done. by rewrite fmap_length, seq_length. Qed.
Lemma merge_row l r pad i : l ≠ [] → r ≠ [] → (i < Nat.max (length l) (length r))%nat →
  merge_tables l r pad !! i = Some (row_at l i ++ (if String.eqb pad "" then [] else [CText pad]) ++ row_at r i).
Proof. intros Hl Hr Hi. rewrite merge_eq by done. rewrite list_lookup_fmap, lookup_seq_lt by done. done. Qed.
Lemma merge_rectangular a b l r pad : rectangular a l → rectangular b r → l ≠ [] → r ≠ [] →
  rectangular (a + (if String.eqb pad "" then 0 else 1) + b)%nat (merge_tables l r pad).
Proof.
  intros Hl Hr Nl Nr. rewrite merge_eq by done. apply Forall_fmap, Forall_forall. intros i _. cbn.
  rewrite !app_length, (row_at_length a), (row_at_length b) by done. destruct (String.eqb pad ""); cbn; lia.
Qed.
Lemma merge_nonempty l r pad : l ≠ [] → merge_tables l r pad ≠ [].
Proof. intros Hl. destruct r as [|x r]; [by destruct l|]. intros E. apply (f_equal length) in E. rewrite merge_length in E by done. destruct l; [done|]. cbn in E. lia. Qed.
Lemma merge_shown_left l r pad cells : l ≠ [] → r ≠ [] → shown l cells → shown (merge_tables l r pad) cells.
Proof.
  intros Hl Hr (row & b & a & Hin & E). apply elem_of_list_In, elem_of_list_lookup_1 in Hin as [i Hi].
  pose proof (lookup_lt_Some _ _ _ Hi). exists (row_at l i ++ (if String.eqb pad "" then [] else [CText pad]) ++ row_at r i), b, (a ++ (if String.eqb pad "" then [] else [CText pad]) ++ row_at r i). split.
  - apply elem_of_list_In. eapply elem_of_list_lookup_2. apply (merge_row _ _ pad i); [done|done|lia].
  - assert (El : row_at l i = row) by (unfold row_at; by rewrite Hi). rewrite El, E, <- !app_assoc. done.
Qed.
Lemma merge_shown_right l r pad cells : l ≠ [] → r ≠ [] → shown r cells → shown (merge_tables l r pad) cells.
Proof.
  intros Hl Hr (row & b & a & Hin & E). apply elem_of_list_In, elem_of_list_lookup_1 in Hin as [i Hi].
  pose proof (lookup_lt_Some _ _ _ Hi). exists (row_at l i ++ (if String.eqb pad "" then [] else [CText pad]) ++ row_at r i), (row_at l i ++ (if String.eqb pad "" then [] else [CText pad]) ++ b), a. split.
  - apply elem_of_list_In. eapply elem_of_list_lookup_2. apply (merge_row _ _ pad i); [done|done|lia].
  - assert (El : row_at r i = row) by (unfold row_at; by rewrite Hi). rewrite El, E, <- !app_assoc. done.
Qed.

Lemma widest_ge t r : In r t → (length r ≤ widest t)%nat.
Proof. induction t as [|x t IH]; [done|]. change (widest (x :: t)) with (Nat.max (length x) (widest t)). intros [->|H]; [lia|]. specialize (IH H). lia. Qed.
Lemma widest_is t w : rectangular w t → t ≠ [] → widest t = w.
Proof.
  induction t as [|x t IH]; [done|]. intros Hr _. apply Forall_cons_1 in Hr as [Hx Hr]. change (Nat.max (length x) (widest t) = w). destruct t as [|y t]; [cbn; lia|].
  rewrite IH by done. lia.
Qed.
Lemma concat_ok up down n : up ++ down ≠ [] → concat_tables up down n =
  Ok ((pad_row (widest (up ++ down)) <$> up) ++ replicate n (replicate (widest (up ++ down)) (CText "")) ++ (pad_row (widest (up ++ down)) <$> down)).
Proof. unfold concat_tables. destruct (up ++ down); done. Qed.
Lemma pad_row_length w r : (length r ≤ w)%nat → length (pad_row w r) = w.
Proof. intros. unfold pad_row. rewrite app_length, replicate_length. lia. Qed.
Lemma concat_rectangular up down n t : concat_tables up down n = Ok t → rectangular (widest (up ++ down)) t.
Proof.
  intros H. assert (Hne : up ++ down ≠ []) by (intros E; unfold concat_tables in H; by rewrite E in H). rewrite concat_ok in H by done. injection H as <-.
  apply Forall_app. split; [|apply Forall_app; split].
  - apply Forall_fmap, Forall_forall. intros r Hr. cbn. apply pad_row_length, widest_ge, in_app_iff. left. by apply elem_of_list_In.
  - apply Forall_forall. intros r Hr. apply elem_of_replicate in Hr as [-> _]. apply replicate_length.
  - apply Forall_fmap, Forall_forall. intros r Hr. cbn. apply pad_row_length, widest_ge, in_app_iff. right. by apply elem_of_list_In.
Qed.
Lemma concat_shown up down n t cells : concat_tables up down n = Ok t → shown up cells ∨ shown down cells → shown t cells.
Proof.
  intros H. assert (Hne : up ++ down ≠ []) by (intros E; unfold concat_tables in H; by rewrite E in H). rewrite concat_ok in H by done. injection H as <-.
  intros [(r & b & a & Hin & E)|(r & b & a & Hin & E)]; exists (pad_row (widest (up ++ down)) r), b, (a ++ replicate (widest (up ++ down) - length r) (CText "")); (split; [|rewrite E; unfold pad_row; rewrite <- !app_assoc; done]).
  - apply in_app_iff. left. apply in_map. done.
  - apply in_app_iff. right. apply in_app_iff. right. apply in_map. done.
Qed.

(** ** Printing *)
Lemma width_of_ok t i : (∀ r, In r t → (i < length r)%nat) → ∃ w, width_of t i = Ok w ∧ ∀ r c, In r t → r !! i = Some c → (String.length (cell_text c) ≤ w)%nat.
Proof.
  induction t as [|x t IH]; intros H; [exists 0%nat; split; [done|]; intros r c []|].
  destruct IH as (w & Hw & Hle); [intros r Hr; apply H; by right|]. destruct (lookup_lt_is_Some_2 x i) as [c Hc]; [apply H; by left|].
  exists (Nat.max (String.length (cell_text c)) w). split.
  - cbn. unfold width_of in Hw. rewrite Hw. cbn. by rewrite Hc.
  - intros r c' [<-|Hr] Hc'; [rewrite Hc in Hc'; injection Hc' as <-; lia|]. specialize (Hle r c' Hr Hc'). lia.
Qed.
Lemma width_of_exn t i e : width_of t i = Raise e → e = IndexError.
Proof.
  revert e. induction t as [|y t IH]; intros e E; [done|]. cbn in E. fold (width_of t i) in E. destruct (width_of t i) as [w|e']; cbn in E.
  - destruct (y !! i); [done|]. injection E as <-. done.
  - apply IH. done.
Qed.
Lemma width_of_raises t i r : In r t → (length r ≤ i)%nat → width_of t i = Raise IndexError.
Proof.
  induction t as [|x t IH]; intros Hin Hl; [done|]. cbn. destruct Hin as [->|Hin].
  - fold (width_of t i). destruct (width_of t i) as [w|e] eqn:E; cbn.
    + rewrite lookup_ge_None_2 by done. done.
    + f_equal. by eapply width_of_exn.
  - fold (width_of t i). rewrite IH by done. done.
Qed.
Lemma widths_ok t n : ∀ i, (∀ r, In r t → (i + n ≤ length r)%nat) → ∃ ws, widths t n i = Ok ws ∧ length ws = n ∧
  ∀ r j c w, In r t → r !! (i + j)%nat = Some c → ws !! j = Some w → (String.length (cell_text c) ≤ w)%nat.
Proof.
  induction n as [|n IH]; intros i H.
  - exists []. split; [done|split; [done|]]. intros r j c w _ _ Hj. by rewrite lookup_nil in Hj.
  - destruct (width_of_ok t i) as (w & Hw & Hle); [intros r Hr; specialize (H r Hr); lia|].
    destruct (IH (S i)) as (ws & Hws & Hl & Hle'); [intros r Hr; specialize (H r Hr); lia|].
    exists (w :: ws). cbn. rewrite Hw. cbn. rewrite Hws. cbn. split; [done|split; [by rewrite Hl|]].
    intros r [|j] c w' Hr Hc Hj.
    + cbn in Hj. injection Hj as <-. replace (i + 0)%nat with i in Hc by lia. eapply Hle; eassumption.
    + cbn in Hj. eapply Hle'; [exact Hr| |exact Hj]. by replace (S i + j)%nat with (i + S j)%nat by lia.
Qed.
Lemma widths_raises t n : ∀ i r, In r t → (i ≤ length r < i + n)%nat → widths t n i = Raise IndexError.
Proof.
  induction n as [|n IH]; intros i r Hr Hl; [lia|]. cbn. destruct (decide (length r = i)) as [E|E].
  - rewrite (width_of_raises t i r Hr) by lia. done.
  - destruct (width_of t i) as [w|e] eqn:Ew; cbn.
    + rewrite (IH (S i) r); [done|done|lia].
    + f_equal. by eapply width_of_exn.
Qed.

Definition start (pad : nat) (ws : list nat) (j : nat) : nat := (sum_list (take j ws) + pad * j)%nat.
Lemma start_next pad ws j w : ws !! j = Some w → start pad ws (S j) = (start pad ws j + w + pad)%nat.
Proof. intros H. unfold start. rewrite (take_S_r _ _ _ H), sum_list_with_app. cbn. lia. Qed.
Lemma print_row_ok line pad ws r : ∀ j, (j + length r ≤ length ws)%nat → ∃ ps, print_row line pad ws j r = Ok ps ∧ length ps = length r ∧
  ∀ k c, r !! k = Some c → ∃ w, ws !! (j + k)%nat = Some w ∧ ps !! k = Some (line, start pad ws (j + k), rjust (cell_text c) w).
Proof.
  induction r as [|c r IH]; intros j Hl.
  - exists []. split; [done|split; [done|]]. intros k c Hk. by rewrite lookup_nil in Hk.
  - cbn in Hl. destruct (IH (S j)) as (ps & E & Hn & Hps); [lia|]. destruct (lookup_lt_is_Some_2 ws j) as [w Hw]; [lia|].
    cbn [print_row]. rewrite Hw, E. cbn. eexists. split; [done|]. split; [cbn; by rewrite Hn|].
    intros [|k] c' Hk; cbn in Hk.
    + injection Hk as <-. exists w. replace (j + 0)%nat with j by lia. done.
    + destruct (Hps k c' Hk) as (w' & Hw' & Hp). exists w'. replace (j + S k)%nat with (S j + k)%nat by lia. done.
Qed.
Lemma print_row_raises line pad ws r : ∀ j, (j ≤ length ws < j + length r)%nat → print_row line pad ws j r = Raise IndexError.
Proof.
  induction r as [|c r IH]; intros j Hl; cbn in Hl; [lia|]. cbn. destruct (ws !! j) as [w|] eqn:E; [|done].
  pose proof (lookup_lt_Some _ _ _ E). rewrite IH by lia. done.
Qed.
Lemma print_rows_ok pad ws t : ∀ line, rectangular (length ws) t → ∃ ps, print_rows line pad ws t = Ok ps ∧ length ps = (length t * length ws)%nat ∧
  ∀ i j c, cell_at t i j = Some c → ∃ w, ws !! j = Some w ∧ ps !! (i * length ws + j)%nat = Some ((line + i)%nat, start pad ws j, rjust (cell_text c) w).
Proof.
  induction t as [|r t IH]; intros line Hr.
  - exists []. split; [done|split; [done|]]. intros i j c Hk. unfold cell_at in Hk. by rewrite lookup_nil in Hk.
  - apply Forall_cons_1 in Hr as [Hr Ht]. destruct (print_row_ok line pad ws r 0) as (a & Ea & Ha & Hps); [lia|].
    destruct (IH (S line) Ht) as (b & Eb & Hb & Hps'). cbn. rewrite Ea. cbn. rewrite Eb. cbn. eexists. split; [done|].
    split; [rewrite app_length, Ha, Hb, Hr; done|]. intros [|i] j c Hc; unfold cell_at in Hc; cbn in Hc.
    + destruct (Hps j c Hc) as (w & Hw & Hp). exists w. split; [done|]. rewrite lookup_app_l by (rewrite Ha; by eapply lookup_lt_Some).
      cbn. rewrite Hp. by replace (line + 0)%nat with line by lia.
    + destruct (Hps' i j c Hc) as (w & Hw & Hp). exists w. split; [done|]. rewrite lookup_app_r by (rewrite Ha, Hr; cbn; lia).
      rewrite Ha, Hr. replace (S i * length ws + j - length ws)%nat with (i * length ws + j)%nat by (cbn; lia). rewrite Hp. by replace (line + S i)%nat with (S line + i)%nat by lia.
Qed.
Lemma print_ok line t pad w : rectangular w t → ∃ ps (starts : nat → nat), print_table line t pad = Ok ps ∧ length ps = (length t * w)%nat ∧
  (∀ i j c, cell_at t i j = Some c → ∃ n, ps !! (i * w + j)%nat = Some ((line + i)%nat, starts j, spaces n +:+ cell_text c) ∧
    starts (S j) = (starts j + n + String.length (cell_text c) + pad)%nat).
Proof.
  intros Hr. destruct t as [|r t].
  { exists [], (λ _, 0%nat). split; [done|split; [done|]]. intros i j c Hk. unfold cell_at in Hk. by rewrite lookup_nil in Hk. }
  assert (El : length r = w) by (by apply Forall_cons_1 in Hr as [? _]).
  destruct (widths_ok (r :: t) (length r) 0) as (ws & Hws & Hl & Hle).
  { intros r' Hin. eapply (proj1 (List.Forall_forall _ _)) in Hr; [|exact Hin]. cbn in Hr. lia. }
  assert (Hl' : length ws = w) by lia. rewrite <- Hl' in Hr. destruct (print_rows_ok pad ws (r :: t) line Hr) as (ps & E & Hn & Hps).
  exists ps, (start pad ws). unfold print_table. rewrite Hws. cbn [mbind res_bind]. split; [done|]. rewrite Hl' in Hn, Hps. split; [done|].
  intros i j c Hc. destruct (Hps i j c Hc) as (v & Hv & Hp). exists (v - String.length (cell_text c))%nat. split; [done|].
  rewrite (start_next _ _ _ _ Hv). unfold cell_at in Hc. destruct ((r :: t) !! i) as [r'|] eqn:Hi; [|done].
  assert (String.length (cell_text c) ≤ v)%nat; [|lia]. eapply (Hle r' j c v); [|done|done]. apply elem_of_list_In. by eapply elem_of_list_lookup_2.
Qed.
Lemma print_raises line t pad r r' : In r t → In r' t → length r ≠ length r' → print_table line t pad = Raise IndexError.
Proof.
  intros H1 H2 Hne. destruct t as [|h t]; [done|]. unfold print_table. set (T := h :: t) in *.
  assert (Hd : (∃ x, In x T ∧ (length x < length h)%nat) ∨ ¬ (∃ x, In x T ∧ (length x < length h)%nat)).
  { destruct (decide (Exists (λ x : list cell, (length x < length h)%nat) T)) as [He|He]; rewrite List.Exists_exists in He; [by left|by right]. }
  destruct Hd as [(x & Hx & Hl)|Hno].
  { rewrite (widths_raises T (length h) 0 x Hx) by lia. done. }
  destruct (widths_ok T (length h) 0) as (ws & Hws & Hl & _).
  { intros x Hx. destruct (decide (length x < length h)%nat); [|lia]. destruct Hno. by exists x. }
  rewrite Hws. cbn [mbind res_bind].
  assert (Hy : ∃ y, In y T ∧ (length ws < length y)%nat).
  { destruct (decide (length ws < length r)%nat); [by exists r|]. destruct (decide (length ws < length r')%nat); [by exists r'|].
    destruct Hno. destruct (decide (length r < length h)%nat); [by exists r|]. destruct (decide (length r' < length h)%nat); [by exists r'|]. lia. }
  destruct Hy as (y & Hy & Hly). clear -Hy Hly. revert line. induction T as [|z T IH]; intros line; [done|]. cbn.
  destruct (decide (length ws < length z)%nat); [rewrite print_row_raises by lia; done|].
  destruct (print_row_ok line pad ws z 0) as (a & Ea & _); [lia|]. rewrite Ea. cbn. destruct Hy as [->|Hy]; [lia|]. rewrite IH by done. done.
Qed.

Lemma print_apart line t pad w ps : rectangular w t → print_table line t pad = Ok ps →
  (∀ x, In x ps → (line ≤ x.1.1 < line + length t)%nat) ∧
  ∀ a b x y, ps !! a = Some x → ps !! b = Some y → a ≠ b → apart pad x y.
Proof.
  intros Hr E. destruct (print_ok line t pad w Hr) as (ps' & st & E' & Hl & Hc). rewrite E in E'. injection E' as <-.
  assert (Hcell : ∀ i j, (i < length t)%nat → (j < w)%nat → ∃ c, cell_at t i j = Some c).
  { intros i j Hi Hj. destruct (lookup_lt_is_Some_2 t i Hi) as [r Er]. pose proof (proj1 (Forall_lookup _ _) Hr i r Er) as Hlr. cbn in Hlr.
    unfold cell_at. rewrite Er. apply lookup_lt_is_Some_2. lia. }
  assert (Hpos : ∀ a x, ps !! a = Some x → ∃ i j c n, a = (i * w + j)%nat ∧ (i < length t)%nat ∧ (j < w)%nat ∧ x = ((line + i)%nat, st j, spaces n +:+ cell_text c) ∧
      st (S j) = (st j + n + String.length (cell_text c) + pad)%nat).
  { intros a x Hx. pose proof (lookup_lt_Some _ _ _ Hx) as Ha. rewrite Hl in Ha. assert (w ≠ 0%nat) by (intros ->; lia).
    pose proof (Nat.div_mod a w ltac:(done)) as Ed. pose proof (Nat.mod_upper_bound a w ltac:(done)) as Em.
    assert (Hi : (a / w < length t)%nat) by (apply Nat.div_lt_upper_bound; lia).
    destruct (Hcell _ _ Hi Em) as [c Ec]. destruct (Hc _ _ _ Ec) as (n & Hp & Hs). exists (a / w)%nat, (a mod w)%nat, c, n.
    assert (Ea : (a / w * w + a mod w)%nat = a) by lia. rewrite Ea in Hp. rewrite Hx in Hp. injection Hp as ->. split_and!; [lia|done|done|done|done]. }
  assert (Hmono : ∀ i j j', (i < length t)%nat → (j ≤ j' ≤ w)%nat → (st j ≤ st j')%nat).
  { intros i j j' Hi [Hj Hj']. induction Hj as [|j' Hj IH]; [lia|]. specialize (IH ltac:(lia)). destruct (Hcell i j' Hi ltac:(lia)) as [c Ec].
    destruct (Hc _ _ _ Ec) as (n & _ & Hs). lia. }
  split.
  - intros x Hx. apply elem_of_list_In, elem_of_list_lookup_1 in Hx as [a Ha]. destruct (Hpos a x Ha) as (i & j & c & n & _ & Hi & _ & -> & _). cbn. lia.
  - intros a b x y Ha Hb Hab. destruct (Hpos a x Ha) as (i & j & c & n & -> & Hi & Hj & -> & Hs). destruct (Hpos b y Hb) as (i' & j' & c' & n' & -> & Hi' & Hj' & -> & Hs').
    unfold apart. cbn. rewrite !length_append, !length_spaces. destruct (decide (i = i')) as [->|]; [right|left; lia].
    destruct (decide (j < j')%nat); [left|right].
    + pose proof (Hmono i' (S j) j' ltac:(lia) ltac:(lia)). lia.
    + assert (j' < j)%nat by (destruct (decide (j = j')) as [->|]; [done|lia]). pose proof (Hmono i' (S j') j ltac:(lia) ltac:(lia)). lia.
Qed.

(** ** Dictionaries *)
Lemma dict_get_in k v r : NoDup r.*1 → In (k, v) r → dict_get k r = Ok v.
Proof.
  unfold dict_get. induction r as [|[k' v'] r IH]; intros Hn Hin; [done|]. apply NoDup_cons in Hn as [Hk Hn]. cbn in *. destruct Hin as [[= -> ->]|Hin].
  - rewrite String.eqb_refl. done.
  - destruct (String.eqb_spec k' k) as [->|]; [|by apply IH]. destruct Hk. apply elem_of_list_fmap. exists (k, v). split; [done|by apply elem_of_list_In].
Qed.
Definition put1 (k : bytes) (v : cell) (p : bytes * cell) : bytes * cell := if String.eqb p.1 k then (k, v) else p.
Lemma put1_key k v p : (put1 k v p).1 = p.1.
Proof. unfold put1. destruct (String.eqb_spec p.1 k); done. Qed.
Lemma put1_keys k v r : (put1 k v <$> r).*1 = r.*1.
Proof. rewrite <- list_fmap_compose. apply list_fmap_ext. intros ? p _. apply put1_key. Qed.
Lemma put1_in k v r k' v' : k' ≠ k → In (k', v') r → In (k', v') (put1 k v <$> r).
Proof. intros Hk Hin. apply elem_of_list_In, elem_of_list_fmap. exists (k', v'). split; [|by apply elem_of_list_In]. unfold put1. cbn. destruct (String.eqb_spec k' k); done. Qed.
Lemma update_ok k f r v v' : NoDup r.*1 → In (k, v) r → f v = Ok v' → update k f r = Ok (put1 k v' <$> r).
Proof.
  intros Hn Hin Hf. unfold update. rewrite (dict_get_in k v r Hn Hin). cbn. rewrite Hf. cbn. unfold dict_put.
  assert (E : existsb (λ p : bytes * cell, String.eqb p.1 k) r = true) by (apply existsb_exists; exists (k, v); split; [done|apply String.eqb_refl]).
  rewrite E. done.
Qed.
Lemma pop_entries r : dict_pop "last" r = entries r.
Proof.
  unfold dict_pop, entries. induction r as [|p r IH]; [done|]. rewrite filter_cons. cbn. destruct (String.eqb_spec p.1 "last"); cbn; rewrite IH.
  - rewrite decide_False by tauto. done.
  - rewrite decide_True by done. done.
Qed.
Lemma entries_put k v r : entries (put1 k v <$> r) = put1 k v <$> entries r.
Proof.
  unfold entries. induction r as [|p r IH]; [done|]. rewrite fmap_cons, !filter_cons, put1_key. rewrite IH. destruct (decide (p.1 ≠ "last")); done.
Qed.
Lemma entries_nodup r : NoDup r.*1 → NoDup (entries r).*1.
Proof.
  unfold entries. induction r as [|p r IH]; [done|]. rewrite filter_cons. cbn. intros H. apply NoDup_cons in H as [Hp H]. destruct (decide (p.1 ≠ "last")).
  - cbn. apply NoDup_cons. split; [|by apply IH]. intros Hin. destruct Hp. apply elem_of_list_fmap in Hin as (q & -> & Hq). apply elem_of_list_filter in Hq as [_ Hq].
    apply elem_of_list_fmap. by exists q.
  - by apply IH.
Qed.
Lemma entries_in k v r : k ≠ "last" → In (k, v) r → In (k, v) (entries r).
Proof. intros Hk Hin. apply elem_of_list_In, elem_of_list_filter. split; [done|by apply elem_of_list_In]. Qed.
Lemma keys_in_eq k v v' (r : list (bytes * cell)) : NoDup r.*1 → In (k, v) r → In (k, v') r → v = v'.
Proof. intros Hn H1 H2. pose proof (dict_get_in _ _ _ Hn H1) as E1. rewrite (dict_get_in _ _ _ Hn H2) in E1. by injection E1. Qed.

Lemma bytes_range n : 0 <= n < 1024 ^ 5 → ∃ s, format_bytes n = Ok s.
Proof.
  intros Hn. unfold format_bytes. change (1024 ^ 5) with 1125899906842624 in Hn. cbn [format_bytes_from].
  repeat (match goal with |- context [?a <=? ?b] => destruct (Z.leb_spec a b) end; [|cbn; eauto]). lia.
Qed.
Lemma us_range n : 0 <= n < 10 ^ 9 → ∃ s, format_microseconds n = Ok s.
Proof.
  change (10 ^ 9) with 1000000000. intros Hn. destruct (decide (n < 1000)).
  - destruct (us_small n) as (d & _ & E & _); [lia|]. eauto.
  - destruct (decide (n < 1000000)); [rewrite us_ms by lia; eauto|rewrite us_s by lia; eauto].
Qed.

Lemma worker_row_ok r : worker_ok r → ∃ r', worker_row 24 r = Ok r' ∧ r'.*1 = (entries r).*1 ∧ Forall2 (displays r) (entries r) r'.*2.
Proof.
  intros (Hn & (wv & Hw & ws & ->) & (acv & Hac & xa & ac & ->) & (arv & Har & ar & -> & Harn) & (cv & Hc & xc & c & ->) & (rv & Hr & rs & -> & Hrn) & (lastv & Hlast & last & ->) & (lagv & Hlag & lag & -> & Hlagn) & _).
  destruct (bytes_range ar Harn) as [sar Esar]. destruct (bytes_range rs Hrn) as [srs Esrs]. destruct (us_range lag Hlagn) as [slag Eslag].
  set (v1 := CText (truncate ws 24 KeepLeft)). set (r1 := put1 "worker" v1 <$> r). set (r2 := put1 "agt_cpu" (CText ac) <$> r1). set (r3 := put1 "agt_rss" (CText sar) <$> r2).
  set (r4 := put1 "cpu" (CText c) <$> r3). set (r5 := put1 "rss" (CText srs) <$> r4).
  set (vl := CText ((if 5 <? last then "(" +:+ format_seconds last +:+ ") " else "") +:+ slag)). set (r6 := put1 "lag" vl <$> entries r5).
  assert (K1 : r1.*1 = r.*1) by apply put1_keys. assert (K2 : r2.*1 = r.*1) by (unfold r2; by rewrite put1_keys). assert (K3 : r3.*1 = r.*1) by (unfold r3; by rewrite put1_keys).
  assert (K4 : r4.*1 = r.*1) by (unfold r4; by rewrite put1_keys). assert (K5 : r5.*1 = r.*1) by (unfold r5; by rewrite put1_keys).
  assert (E5 : entries r5 = (λ p, put1 "rss" (CText srs) (put1 "cpu" (CText c) (put1 "agt_rss" (CText sar) (put1 "agt_cpu" (CText ac) (put1 "worker" v1 p))))) <$> entries r).
  { unfold r5, r4, r3, r2, r1. rewrite !entries_put, <- !list_fmap_compose. done. }
  exists r6. split.
  { unfold worker_row. rewrite (update_ok "worker" _ r _ v1 Hn Hw eq_refl). cbn [mbind res_bind]. fold r1.
    rewrite (update_ok "agt_cpu" _ r1 (CFloat xa ac) (CText ac)); [|by rewrite K1|by apply put1_in|done]. cbn [mbind res_bind]. fold r2.
    rewrite (update_ok "agt_rss" _ r2 (CInt ar) (CText sar)); [|by rewrite K2|by repeat apply put1_in|unfold format_size_cell; by rewrite Esar]. cbn [mbind res_bind]. fold r3.
    rewrite (update_ok "cpu" _ r3 (CFloat xc c) (CText c)); [|by rewrite K3|by repeat apply put1_in|done]. cbn [mbind res_bind]. fold r4.
    rewrite (update_ok "rss" _ r4 (CInt rs) (CText srs)); [|by rewrite K4|by repeat apply put1_in|unfold format_size_cell; by rewrite Esrs]. cbn [mbind res_bind]. fold r5.
    rewrite (dict_get_in "last" (CInt last)); [|by rewrite K5|by repeat apply put1_in]. cbn [mbind res_bind]. rewrite pop_entries.
    rewrite (update_ok "lag" _ (entries r5) (CInt lag) vl); [done|apply entries_nodup; by rewrite K5|apply entries_in; [done|by repeat apply put1_in]|]. by rewrite Eslag. }
  split.
  { unfold r6. rewrite put1_keys, E5, <- list_fmap_compose. apply list_fmap_ext. intros ? p _. cbn. by rewrite !put1_key. }
  unfold r6. rewrite E5, <- !list_fmap_compose. apply Forall2_fmap_r, Forall_Forall2_diag, Forall_forall. intros [k v] Hin. apply elem_of_list_filter in Hin as [Hk Hin]. cbn in Hk. apply elem_of_list_In in Hin. cbn.
  destruct (decide (k = "worker")) as [->|N1]; [rewrite (keys_in_eq _ _ _ _ Hn Hin Hw); by exists ws|].
  destruct (decide (k = "agt_cpu")) as [->|N2]; [rewrite (keys_in_eq _ _ _ _ Hn Hin Hac); by exists xa, ac|].
  destruct (decide (k = "agt_rss")) as [->|N3]; [rewrite (keys_in_eq _ _ _ _ Hn Hin Har); by exists ar, sar|].
  destruct (decide (k = "cpu")) as [->|N4]; [rewrite (keys_in_eq _ _ _ _ Hn Hin Hc); by exists xc, c|].
  destruct (decide (k = "rss")) as [->|N5]; [rewrite (keys_in_eq _ _ _ _ Hn Hin Hr); by exists rs, srs|].
  destruct (decide (k = "lag")) as [->|N6].
  { rewrite (keys_in_eq _ _ _ _ Hn Hin Hlag). exists lag, slag, last. split_and!; [done|done|done|]. cbn. unfold vl. destruct (Z.ltb_spec 5 last), (decide (5 < last)); (done || lia). }
  rewrite decide_False by tauto. rewrite decide_False by tauto.
  assert (Hp : ∀ k' v', k ≠ k' → put1 k' v' (k, v) = (k, v)) by (intros k' v' Hne; unfold put1; cbn; by destruct (String.eqb_spec k k')).
  rewrite !Hp by done. done.
Qed.

(** ** Sorting *)
Lemma text_asym s : ∀ t, text_lt s t = true → text_lt t s = false.
Proof.
  induction s as [|a s IH]; intros [|b t]; cbn; try done. destruct (N.eqb_spec (N_of_ascii a) (N_of_ascii b)) as [E|E].
  - rewrite E, N.eqb_refl. apply IH.
  - destruct (N.eqb_spec (N_of_ascii b) (N_of_ascii a)) as [E'|_]; [congruence|]. intros H%N.ltb_lt. apply N.ltb_ge. lia.
Qed.
Lemma text_negtrans s : ∀ t u, text_lt s t = false → text_lt t u = false → text_lt s u = false.
Proof.
  induction s as [|a s IH]; intros [|b t] [|c u]; cbn; try done.
  destruct (N.eqb_spec (N_of_ascii a) (N_of_ascii b)) as [E|E], (N.eqb_spec (N_of_ascii b) (N_of_ascii c)) as [E'|E'], (N.eqb_spec (N_of_ascii a) (N_of_ascii c)) as [E''|E'']; try (exfalso; congruence);
    rewrite ?N.ltb_ge; try (intros; lia). apply IH.
Qed.
Lemma text_total s : ∀ t, text_lt s t = false → text_lt t s = false → s = t.
Proof.
  induction s as [|a s IH]; intros [|b t]; cbn; try done. destruct (N.eqb_spec (N_of_ascii a) (N_of_ascii b)) as [E|E].
  - rewrite E, N.eqb_refl. intros H1 H2. rewrite (IH t H1 H2). f_equal. rewrite <- (ascii_N_embedding a), <- (ascii_N_embedding b), E. done.
  - destruct (N.eqb_spec (N_of_ascii b) (N_of_ascii a)) as [E'|_]; [congruence|]. rewrite !N.ltb_ge. lia.
Qed.
Lemma text_higher s : ∀ t, text_lt t s = true → higher (CText s) (CText t).
Proof.
  induction s as [|a s IH]; intros [|b t]; cbn; try done.
  - intros _. left. by exists a, s.
  - destruct (N.eqb_spec (N_of_ascii b) (N_of_ascii a)) as [E|E].
    + assert (b = a) as -> by (rewrite <- (ascii_N_embedding a), <- (ascii_N_embedding b), E; done). intros H. destruct (IH t H) as [(x & more & ->)|(cm & x & y & s' & t' & -> & -> & Hl)].
      * left. by exists x, more.
      * right. by exists (String a cm), x, y, s', t'.
    + intros H%N.ltb_lt. right. by exists "", a, b, s, t.
Qed.
Lemma cell_asym a b : cell_lt a b = true → cell_lt b a = false.
Proof. destruct a, b; cbn [cell_lt]; try done; [apply text_asym|..]; rewrite Z.ltb_lt, Z.ltb_ge; lia. Qed.
Lemma cell_negtrans a b c : cell_lt a b = false → cell_lt b c = false → cell_lt a c = false.
Proof. destruct a, b, c; cbn [cell_lt]; try done; [apply text_negtrans|..]; rewrite !Z.ltb_ge; lia. Qed.

Lemma insert_perm {A} (x : cell * A) l : insert_row x l ≡ₚ x :: l.
Proof. induction l as [|y l IH]; cbn; [done|]. destruct (cell_lt x.1 y.1); [|done]. rewrite IH. constructor. Qed.
Lemma sort_perm {A} (l : list (cell * A)) : sort_rows l ≡ₚ l.
Proof. induction l as [|x l IH]; cbn; [done|]. rewrite insert_perm. unfold sort_rows in IH. by rewrite IH. Qed.
Lemma sort_fmap {A B} (f : A → B) (l : list (cell * A)) : sort_rows ((λ p, (p.1, f p.2)) <$> l) = (λ p, (p.1, f p.2)) <$> sort_rows l.
Proof.
  induction l as [|x l IH]; [done|]. cbn. unfold sort_rows in IH. rewrite IH. generalize (foldr insert_row [] l). clear. intros l.
  induction l as [|y l IH]; cbn; [done|]. destruct (cell_lt x.1 y.1); [|done]. rewrite fmap_cons. f_equal. exact IH.
Qed.
Definition precedes (x y : cell * nat) : Prop := cell_lt y.1 x.1 = true ∨ cell_lt x.1 y.1 = false ∧ cell_lt y.1 x.1 = false ∧ (x.2 < y.2)%nat.
Lemma insert_sorted x l : Forall (λ y, (x.2 < y.2)%nat) l → StronglySorted precedes l → StronglySorted precedes (insert_row x l).
Proof.
  intros Hx Hs. induction Hs as [|y l Hs IH Hy]; cbn; [repeat constructor|]. apply Forall_cons in Hx as [Hxy Hx]. destruct (cell_lt x.1 y.1) eqn:E.
  - constructor; [auto|]. rewrite insert_perm. constructor; [left; exact E|exact Hy].
  - constructor; [constructor; assumption|]. constructor; [destruct (cell_lt y.1 x.1) eqn:E'; [left|right]; auto|].
    rewrite Forall_forall in *. intros z Hz. specialize (Hy z Hz). specialize (Hx z Hz). destruct (cell_lt z.1 x.1) eqn:E'; [left; exact E'|right]. split; [|auto].
    eapply cell_negtrans; [exact E|]. destruct Hy as [Hy|[Hy _]]; [apply cell_asym, Hy|exact Hy].
Qed.
Lemma sort_sorted l : StronglySorted (λ x y : cell * nat, (x.2 < y.2)%nat) l → StronglySorted precedes (sort_rows l).
Proof.
  intros Hs. induction Hs as [|x l Hs IH Hx]; cbn; [constructor|]. apply insert_sorted; [|exact IH]. change (foldr insert_row [] l) with (sort_rows l). by rewrite sort_perm.
Qed.
Lemma zip_places (cs : list cell) : ∀ k, StronglySorted (λ x y : cell * nat, (x.2 < y.2)%nat) (zip cs (seq k (length cs))).
Proof.
  induction cs as [|c cs IH]; intros k; cbn; [constructor|]. constructor; [apply IH|]. apply Forall_forall. intros [c' p] Hp. apply elem_of_zip_r, elem_of_seq in Hp. cbn. lia.
Qed.
Lemma sorted_nth {A} (R : A → A → Prop) l : StronglySorted R l → ∀ i j x y, (i < j)%nat → l !! i = Some x → l !! j = Some y → R x y.
Proof.
  intros Hs. induction Hs as [|z l Hs IH Hz]; intros i j x y Hij Hi Hj; [done|]. destruct j as [|j]; [lia|]. cbn in Hj. destruct i as [|i]; cbn in Hi.
  - injection Hi as ->. rewrite Forall_forall in Hz. apply Hz. by eapply elem_of_list_lookup_2.
  - eapply IH; [|exact Hi|exact Hj]. lia.
Qed.

Lemma keys_ok (K : cell → Prop) k (rs : list (list (bytes * cell))) : Forall (λ r, NoDup r.*1 ∧ ∃ v, In (k, v) r ∧ K v) rs →
  ∃ cs, keys_of k rs = Ok cs ∧ Forall2 (λ r c, In (k, c) r ∧ K c) rs cs.
Proof.
  induction rs as [|r rs IH]; intros H; [by exists []|]. apply Forall_cons_1 in H as [(Hn & v & Hv & HK) H]. destruct (IH H) as (cs & E & HF). exists (v :: cs). cbn.
  rewrite (dict_get_in k v r Hn Hv). cbn. rewrite E. split; [done|]. by constructor.
Qed.
Lemma sorted_as (K : cell → Prop) k (rs : list (list (bytes * cell))) : Forall (λ r, NoDup r.*1 ∧ ∃ v, In (k, v) r ∧ K v) rs →
  (∀ c, K c → is_text c = true) ∨ (∀ c, K c → is_text c = false) → (∀ a b, K a → K b → cell_lt b a = true → higher a b) → (∀ a b, K a → K b → cell_lt a b = false → cell_lt b a = false → alike a b) →
  ∃ out, sorted_down k rs = Ok out ∧ ranked k rs out ∧ out ≡ₚ rs.
Proof.
  intros H Hty Hhi Heq. destruct (keys_ok K k rs H) as (cs & E & HF). pose proof (Forall2_length _ _ _ HF) as Hlen.
  set (l := zip cs (seq 0 (length cs))). set (f := λ p : nat, default [] (rs !! p)).
  assert (Ez : zip cs rs = (λ p, (p.1, f p.2)) <$> l).
  { apply list_eq. intros i. unfold l. rewrite list_lookup_fmap, !lookup_zip_with. destruct (cs !! i) as [c|] eqn:Ec; cbn; [|done].
    assert (Hi : (i < length cs)%nat) by (by eapply lookup_lt_Some). rewrite (lookup_seq_lt 0 (length cs) i Hi). cbn. destruct (Forall2_lookup_r _ _ _ _ _ HF Ec) as (r & Hr & _). unfold f. by rewrite Hr. }
  exists (sort_rows (zip cs rs)).*2. split; [|split].
  - unfold sorted_down. rewrite E. cbn [mbind res_bind].
    assert (Hall : Forall K cs) by (clear -HF; induction HF as [|r c rs cs [_ Hc] _ IH]; constructor; auto).
    assert (forallb is_text cs || forallb (λ c, negb (is_text c)) cs = true) as ->; [|done]. apply orb_true_iff. destruct Hty as [Ht|Ht]; [left|right]; apply forallb_forall; intros c Hc%elem_of_list_In; rewrite Forall_forall in Hall; specialize (Hall c Hc); [auto|rewrite (Ht c Hall); done].
  - rewrite Ez, sort_fmap. exists (sort_rows l).*2.
    assert (Hl2 : l.*2 = seq 0 (length rs)) by (unfold l; rewrite snd_zip by (rewrite seq_length; lia); congruence).
    split; [by rewrite (sort_perm l), Hl2|]. split.
    { rewrite !fmap_length, (Permutation_length (sort_perm l)). rewrite <- (fmap_length snd l), Hl2, seq_length. done. }
    assert (Hat : ∀ i p, (sort_rows l).*2 !! i = Some p → ∃ c r, sort_rows l !! i = Some (c, p) ∧ rs !! p = Some r ∧ cs !! p = Some c).
    { intros i p Hi. rewrite list_lookup_fmap in Hi. destruct (sort_rows l !! i) as [[c p']|] eqn:Ei; [|done]. injection Hi as ->.
      assert (Hin : (c, p) ∈ l) by (rewrite <- (sort_perm l); by eapply elem_of_list_lookup_2). apply elem_of_list_lookup in Hin as [n Hn]. unfold l in Hn. rewrite lookup_zip_with in Hn.
      destruct (cs !! n) as [c'|] eqn:Ec; [|done]. cbn in Hn. assert (Hln : (n < length cs)%nat) by (by eapply lookup_lt_Some). rewrite (lookup_seq_lt 0 (length cs) n Hln) in Hn. injection Hn as -> <-.
      destruct (Forall2_lookup_r _ _ _ _ _ HF Ec) as (r & Hr & _). exists c, r. auto. }
    split.
    + intros i p Hi. destruct (Hat i p Hi) as (c & r & Hs & Hr & _). rewrite <- list_fmap_compose, list_lookup_fmap, Hs. cbn. unfold f. rewrite Hr. done.
    + intros i j p q r r' Hij Hi Hj Hp Hq. destruct (Hat i p Hi) as (a & r1 & Hs & Hr & Ha). destruct (Hat j q Hj) as (b & r2 & Hs' & Hr' & Hb).
      rewrite Hp in Hr. injection Hr as <-. rewrite Hq in Hr'. injection Hr' as <-. exists a, b.
      destruct (Forall2_lookup_lr _ _ _ _ _ _ HF Hp Ha) as [I1 K1]. destruct (Forall2_lookup_lr _ _ _ _ _ _ HF Hq Hb) as [I2 K2]. split; [exact I1|]. split; [exact I2|].
      destruct (sorted_nth precedes _ (sort_sorted l (zip_places cs 0)) i j _ _ Hij Hs Hs') as [Hlt|(L1 & L2 & L3)]; [left; auto|right; auto].
  - rewrite (sort_perm (zip cs rs)), snd_zip; [done|lia].
Qed.
Lemma sorted_ok k rs : Forall worker_ok rs → k ∈ columns → ∃ out, sorted_down k rs = Ok out ∧ ranked k rs out ∧ out ≡ₚ rs.
Proof.
  intros Hok Hk.
  assert (Htext : (∀ r, worker_ok r → field r k (λ v, ∃ s, v = CText s)) → ∃ out, sorted_down k rs = Ok out ∧ ranked k rs out ∧ out ≡ₚ rs).
  { intros H. apply (sorted_as (λ v, ∃ s, v = CText s)).
    - apply Forall_forall. intros r Hr. rewrite Forall_forall in Hok. split; [apply (Hok r Hr)|]. destruct (H r (Hok r Hr)) as (v & Hv & Hs). eauto.
    - left. by intros c [s ->].
    - intros a b [s ->] [t ->]. apply text_higher.
    - intros a b [s ->] [t ->]. apply text_total. }
  assert (Hint : (∀ r, worker_ok r → field r k (λ v, ∃ n, v = CInt n)) → ∃ out, sorted_down k rs = Ok out ∧ ranked k rs out ∧ out ≡ₚ rs).
  { intros H. apply (sorted_as (λ v, ∃ n, v = CInt n)).
    - apply Forall_forall. intros r Hr. rewrite Forall_forall in Hok. split; [apply (Hok r Hr)|]. destruct (H r (Hok r Hr)) as (v & Hv & Hs). eauto.
    - right. by intros c [s ->].
    - intros a b [s ->] [t ->]. cbn [cell_lt amount higher]. rewrite Z.ltb_lt. apply Z.mul_lt_mono_pos_r. apply Z.pow_pos_nonneg; lia.
    - intros a b [s ->] [t ->]. cbn [cell_lt amount alike]. rewrite !Z.ltb_ge. intros H1 H2. apply (Z.mul_cancel_r _ _ (2 ^ 1074)); [apply Z.pow_nonzero; lia|]. apply Z.le_antisymm; assumption. }
  assert (Hfloat : (∀ r, worker_ok r → field r k (λ v, ∃ x p, v = CFloat x p)) → ∃ out, sorted_down k rs = Ok out ∧ ranked k rs out ∧ out ≡ₚ rs).
  { intros H. apply (sorted_as (λ v, ∃ x p, v = CFloat x p)).
    - apply Forall_forall. intros r Hr. rewrite Forall_forall in Hok. split; [apply (Hok r Hr)|]. destruct (H r (Hok r Hr)) as (v & Hv & Hs). eauto.
    - right. by intros c (x & p & ->).
    - intros a b (x & p & ->) (y & q & ->). cbn [cell_lt amount higher]. rewrite Z.ltb_lt. auto.
    - intros a b (x & p & ->) (y & q & ->). cbn [cell_lt amount alike]. rewrite !Z.ltb_ge. lia. }
  assert (Hsz : ∀ r key, field r key size → field r key (λ v, ∃ n, v = CInt n)) by (intros r key (v & Hv & n & -> & _); exists (CInt n); eauto).
  unfold columns in Hk. repeat (apply elem_of_cons in Hk as [-> |Hk]); [..|by apply elem_of_nil in Hk].
  - apply Htext. intros r (_ & H & _). exact H.
  - apply Hfloat. intros r (_ & _ & H & _). exact H.
  - apply Hint. intros r (_ & _ & _ & H & _). apply Hsz, H.
  - apply Hfloat. intros r (_ & _ & _ & _ & H & _). exact H.
  - apply Hint. intros r (_ & _ & _ & _ & _ & H & _). apply Hsz, H.
  - apply Hint. intros r (_ & _ & _ & _ & _ & _ & _ & _ & H & _). exact H.
  - apply Hint. intros r (_ & _ & _ & _ & _ & _ & _ & _ & _ & H & _). exact H.
  - apply Hint. intros r (_ & _ & _ & _ & _ & _ & _ & _ & _ & _ & H). exact H.
  - apply Hint. intros r (_ & _ & _ & _ & _ & _ & _ & (v & Hv & n & -> & _) & _). exists (CInt n). eauto.
Qed.

(** ** The whole screen *)
Lemma worker_rows_ok rs : Forall worker_ok rs → ∃ rs', worker_rows 24 rs = Ok rs' ∧ Forall2 (λ r r', r'.*1 = (entries r).*1 ∧ Forall2 (displays r) (entries r) r'.*2) rs rs'.
Proof.
  induction rs as [|r rs IH]; intros H; [by exists []|]. apply Forall_cons_1 in H as [Hr H]. destruct (IH H) as (rs' & E & HF). destruct (worker_row_ok r Hr) as (r' & Er & Hr').
  exists (r' :: rs'). cbn. rewrite Er. cbn. rewrite E. cbn. split; [done|]. by constructor.
Qed.
Lemma entries_keys (a b : list (bytes * cell)) : a.*1 = b.*1 → (entries a).*1 = (entries b).*1.
Proof.
  revert b. induction a as [|p a IH]; intros [|q b] H; try done. rewrite !fmap_cons in H. injection H as Hpq H. unfold entries. rewrite !filter_cons, Hpq.
  destruct (decide (q.1 ≠ "last")); rewrite ?fmap_cons, ?Hpq; [f_equal|]; by apply IH.
Qed.
Lemma worker_table_ok ws sort_by : Forall worker_ok ws → (∀ a b : list (bytes * cell), In a ws → In b ws → a.*1 = b.*1) → sort_by ∈ columns →
  ∃ t w out, worker_table ws 24 sort_by = Ok t ∧ rectangular w t ∧ t ≠ [] ∧
    (ws = [] → shown t [CText "No workers"]) ∧
    (∀ r, In r ws → shown t (header sort_by <$> (entries r).*1) ∧ ∃ cells, Forall2 (displays r) (entries r) cells ∧ shown t cells) ∧
    ranked sort_by ws out ∧ ∀ i r, out !! i = Some r → ∃ cells, t !! S i = Some cells ∧ Forall2 (displays r) (entries r) cells.
Proof.
  intros Hok Hkeys Hcol. destruct (sorted_ok sort_by ws Hok Hcol) as (out & Es & Hrk & Hp). destruct ws as [|w0 ws].
  - exists [[CText "No workers"]], 1%nat, out. split; [done|]. split; [by apply Forall_cons_2|]. split; [done|]. split; [|split; [done|split; [exact Hrk|]]].
    + intros _. exists [CText "No workers"], [], []. split; [by left|done].
    + apply Permutation_nil_r in Hp. subst out. done.
  - cbn [worker_table]. rewrite Es. cbn [mbind res_bind]. destruct out as [|r0 rs]; [apply Permutation_nil_l in Hp; done|]. set (ws0 := w0 :: ws) in *. assert (Hne : ws0 ≠ []) by done. clearbody ws0. clear w0 ws. rename ws0 into ws.
    rewrite <- Hp in Hok. assert (Hkeys' : ∀ a b : list (bytes * cell), In a (r0 :: rs) → In b (r0 :: rs) → a.*1 = b.*1).
    { intros a b Ha Hb. apply Hkeys; apply elem_of_list_In; rewrite <- Hp; by apply elem_of_list_In. }
    destruct (worker_rows_ok _ Hok) as (rs' & E & HF). rewrite E. cbn [mbind res_bind].
    assert (Hall : ∀ r', In r' rs' → r'.*1 = (entries r0).*1).
    { intros r' Hin. apply elem_of_list_In, elem_of_list_lookup_1 in Hin as [i Hi]. destruct (Forall2_lookup_r _ _ _ _ _ HF Hi) as (r & Hr & Ek & _). rewrite Ek.
      apply entries_keys, Hkeys'; [|by left]. apply elem_of_list_In. by eapply elem_of_list_lookup_2. }
    assert (Hhd : (hd [] rs').*1 = (entries r0).*1) by (inversion HF; subst; cbn; tauto).
    assert (Hhdr : ((λ p : bytes * cell, CText (if String.eqb p.1 sort_by then "[" +:+ p.1 +:+ "]" else p.1)) <$> hd [] rs') = header sort_by <$> (entries r0).*1).
    { rewrite <- Hhd, <- list_fmap_compose. apply list_fmap_ext. intros ? p _. unfold header. cbn. destruct (String.eqb_spec p.1 sort_by), (decide (p.1 = sort_by)); done. }
    rewrite Hhdr. eexists _, (length (entries r0)), (r0 :: rs). split; [done|]. split; [|split; [done|split; [|split; [|split; [exact Hrk|]]]]].
    + apply Forall_cons_2; [by rewrite !fmap_length|]. apply Forall_fmap, Forall_forall. intros r' Hin. cbn. rewrite fmap_length.
      rewrite <- (fmap_length fst), (Hall r') by (by apply elem_of_list_In). by rewrite fmap_length.
    + done.
    + intros r Hin. assert (Hin' : In r (r0 :: rs)) by (apply elem_of_list_In; rewrite Hp; by apply elem_of_list_In). split.
      * exists (header sort_by <$> (entries r).*1), [], []. rewrite app_nil_r. split; [|done]. left. f_equal. apply entries_keys, Hkeys'; [by left|done].
      * apply elem_of_list_In, elem_of_list_lookup_1 in Hin' as [i Hi]. destruct (Forall2_lookup_l _ _ _ _ _ HF Hi) as (r' & Hr' & Ek & Hd).
        exists r'.*2. split; [done|]. exists r'.*2, [], []. rewrite app_nil_r. split; [|done]. right. apply in_map. apply elem_of_list_In. by eapply elem_of_list_lookup_2.
    + intros i r Hi. destruct (Forall2_lookup_l _ _ _ _ _ HF Hi) as (r' & Hr' & Ek & Hd). exists r'.*2. split; [|exact Hd]. change (((λ r : list (bytes * cell), r.*2) <$> rs') !! i = Some r'.*2). by rewrite list_lookup_fmap, Hr'.
Qed.
Lemma keyword_rectangular title d n b : rectangular 2 (keyword_table title d n b).
Proof. apply Forall_cons_2; [done|]. apply Forall_fmap, Forall_forall. done. Qed.
Lemma keyword_shown title d n b k v : In (k, v) d → shown (keyword_table title d n b)
  [CText (truncate k n KeepLeft); if b then CText (match v with CInt n => format_integer n | c => cell_text c end) else v].
Proof.
  intros Hin. set (cells := [_; _]). exists cells, [], []. split; [|done]. right. apply elem_of_list_In, elem_of_list_fmap. exists (k, v). split; [by destruct v|by apply elem_of_list_In].
Qed.
Lemma keyword_title title d n b : shown (keyword_table title d n b) [CText title; CText ""].
Proof. exists [CText title; CText ""], [], []. split; [by left|done]. Qed.

Lemma status_ok r sort_by : report_ok r → sort_by ∈ columns → ∃ t1 t2 w1 w2, status_tables r sort_by = Ok (t1, t2) ∧ rectangular w1 t1 ∧ rectangular w2 t2 ∧
  (∀ k n, In (k, CInt n) (r_task_manager r ++ r_sent r ++ r_received r) → shown t1 [CText k; CText (format_integer n)]) ∧
  (∀ k v, In (k, v) (r_scheduler r) → k ≠ "cpu" → k ≠ "rss" → shown t1 [CText k; v]) ∧
  (∀ x p, In ("cpu", CFloat x p) (r_scheduler r) → shown t1 [CText "cpu"; CText p]) ∧
  (∀ n s, In ("rss", CInt n) (r_scheduler r) → format_bytes n = Ok s → shown t1 [CText "rss"; CText s]) ∧
  (∀ k v, In (k, v) (r_clients r ++ r_functions r) → shown t2 [CText (truncate k 18 KeepLeft); v]) ∧
  (r_workers r = [] → shown t2 [CText "No workers"]) ∧
  (∀ w, In w (r_workers r) → shown t2 (header sort_by <$> (entries w).*1) ∧ ∃ cells, Forall2 (displays w) (entries w) cells ∧ shown t2 cells) ∧
  ∃ out, ranked sort_by (r_workers r) out ∧ ∀ i w, out !! i = Some w → ∃ cells rest, t2 !! S i = Some (cells ++ rest) ∧ Forall2 (displays w) (entries w) cells.
Proof.
  intros (Hn & (cv & Hc & xc & c & ->) & (rv & Hr & rs & -> & Hrs) & Hw & Hk) Hcol. destruct (bytes_range rs Hrs) as [srs Es].
  unfold status_tables. rewrite (update_ok "cpu" _ _ _ (CText c) Hn Hc eq_refl). cbn [mbind res_bind].
  rewrite (update_ok "rss" _ _ (CInt rs) (CText srs)); [|by rewrite put1_keys|by apply put1_in|unfold format_size_cell; by rewrite Es]. cbn [mbind res_bind].
  destruct (worker_table_ok (r_workers r) sort_by Hw Hk Hcol) as (wt & ww & out & Ewt & Rwt & Nwt & Hnone & Hwt & Hrk & Hat). rewrite Ewt. cbn [mbind res_bind].
  set (s := put1 "rss" (CText srs) <$> (put1 "cpu" (CText c) <$> r_scheduler r)).
  set (ct := keyword_table "client_manager" (r_clients r) 18 false). set (ft := keyword_table "func_to_num_tasks" (r_functions r) 18 false).
  set (t2' := _ : res table). assert (E2 : ∃ t2, t2' = Ok t2 ∧ t2 ≠ []).
  { unfold t2'. rewrite concat_ok by done. eexists. split; [done|]. done. }
  destruct E2 as (t2 & E2 & Nt2). unfold t2' in E2. unfold t2'. rewrite E2. cbn [mbind res_bind].
  pose proof (concat_rectangular _ _ _ _ E2) as R2.
  set (a := keyword_table "scheduler" s 0 false). set (b := keyword_table "task_manager" (r_task_manager r) 0 true).
  set (d := keyword_table "scheduler_sent" (r_sent r) 0 true). set (e := keyword_table "scheduler_received" (r_received r) 0 true).
  assert (Na : a ≠ []) by done. assert (Nb : b ≠ []) by done. assert (Nd : d ≠ []) by done. assert (Ne : e ≠ []) by done.
  pose proof (merge_nonempty a b "|" Na) as Nab. pose proof (merge_nonempty _ d "|" Nab) as Nabd.
  pose proof (merge_rectangular 2 2 a b "|" (keyword_rectangular _ _ _ _) (keyword_rectangular _ _ _ _) Na Nb) as Rab.
  pose proof (merge_rectangular _ 2 _ d "|" Rab (keyword_rectangular _ _ _ _) Nab Nd) as Rabd.
  pose proof (merge_rectangular _ 2 _ e "|" Rabd (keyword_rectangular _ _ _ _) Nabd Ne) as Rabde.
  eexists _, _, _, _. split; [reflexivity|]. split; [exact Rabde|]. split; [exact (merge_rectangular _ _ _ _ "|" Rwt R2 Nwt Nt2)|].
  assert (trunc0 : ∀ k, truncate k 0 KeepLeft = k) by done.
  assert (Hsched : ∀ k v, In (k, v) s → shown (merge_tables (merge_tables (merge_tables a b "|") d "|") e "|") [CText k; v]).
  { intros k v Hin. apply merge_shown_left; [done|done|]. apply merge_shown_left; [done|done|]. apply merge_shown_left; [done|done|]. apply (keyword_shown "scheduler" s 0 false k v Hin). }
  split; [|split; [|split; [|split; [|split; [|split; [|split]]]]]].
  - intros k n Hin. rewrite !in_app_iff in Hin. destruct Hin as [Hin|[Hin|Hin]].
    + apply merge_shown_left; [done|done|]. apply merge_shown_left; [done|done|]. apply merge_shown_right; [done|done|]. apply (keyword_shown "task_manager" _ 0 true k (CInt n) Hin).
    + apply merge_shown_left; [done|done|]. apply merge_shown_right; [done|done|]. apply (keyword_shown "scheduler_sent" _ 0 true k (CInt n) Hin).
    + apply merge_shown_right; [done|done|]. apply (keyword_shown "scheduler_received" _ 0 true k (CInt n) Hin).
  - intros k v Hin N1 N2. apply Hsched. by repeat apply put1_in.
  - intros x p Hin. pose proof (keys_in_eq _ _ _ _ Hn Hc Hin) as Ep. injection Ep as -> ->. apply Hsched. apply put1_in; [done|].
    apply elem_of_list_In, elem_of_list_fmap. exists ("cpu", CFloat x p). split; [done|by apply elem_of_list_In].
  - intros n sn Hin En. pose proof (keys_in_eq _ _ _ _ Hn Hr Hin) as Ep. injection Ep as ->. rewrite Es in En. injection En as ->. apply Hsched.
    apply elem_of_list_In, elem_of_list_fmap. exists ("rss", CInt n). split; [done|]. apply elem_of_list_In. by apply put1_in.
  - intros k v Hin. apply merge_shown_right; [done|done|]. eapply concat_shown; [exact E2|]. rewrite in_app_iff in Hin. destruct Hin as [Hin|Hin]; [left|right].
    + apply (keyword_shown "client_manager" _ 18 false k v Hin).
    + apply (keyword_shown "func_to_num_tasks" _ 18 false k v Hin).
  - intros Hno. apply merge_shown_left; [done|done|]. by apply Hnone.
  - intros w Hin. destruct (Hwt w Hin) as (Hh & cells & Hd & Hsh). split; [by apply merge_shown_left|]. exists cells. split; [done|]. by apply merge_shown_left.
  - exists out. split; [exact Hrk|]. intros i w Hi. destruct (Hat i w Hi) as (cells & Hc' & Hd). exists cells. eexists. split; [|exact Hd].
    assert (Hlt : (S i < length wt)%nat) by (by eapply lookup_lt_Some). rewrite merge_row by (done || lia). unfold row_at at 1. rewrite Hc'. reflexivity.
Qed.
Lemma screen_ok r sort_by : report_ok r → sort_by ∈ columns → ∃ t1 t2 ps1 ps2, status_tables r sort_by = Ok (t1, t2) ∧ print_table 0 t1 1 = Ok ps1 ∧ print_table (length t1 + 4) t2 1 = Ok ps2 ∧
  screen r sort_by = Ok (ps1 ++ ps2) ∧ ∀ a b x y, (ps1 ++ ps2) !! a = Some x → (ps1 ++ ps2) !! b = Some y → a ≠ b → apart 1 x y.
Proof.
  intros Hr Hcol. destruct (status_ok r sort_by Hr Hcol) as (t1 & t2 & w1 & w2 & E & R1 & R2 & _).
  destruct (print_ok 0 t1 1 w1 R1) as (ps1 & st1 & E1 & _). destruct (print_ok (length t1 + 4) t2 1 w2 R2) as (ps2 & st2 & E2 & _).
  exists t1, t2, ps1, ps2. split; [done|]. split; [done|]. split; [done|]. split.
  { unfold screen. rewrite E. cbn [mbind res_bind fst snd]. rewrite E1. cbn [mbind res_bind]. rewrite E2. done. }
  destruct (print_apart _ _ _ _ _ R1 E1) as [L1 A1]. destruct (print_apart _ _ _ _ _ R2 E2) as [L2 A2].
  intros a b x y Ha Hb Hab. apply lookup_app_Some in Ha as [Ha|[La Ha]]; apply lookup_app_Some in Hb as [Hb|[Lb Hb]].
  - by eapply A1.
  - left. apply elem_of_list_lookup_2, elem_of_list_In in Ha, Hb. apply L1 in Ha. apply L2 in Hb. lia.
  - left. apply elem_of_list_lookup_2, elem_of_list_In in Ha, Hb. apply L2 in Ha. apply L1 in Hb. lia.
  - eapply A2; [exact Ha|exact Hb|]. lia.
Qed.
