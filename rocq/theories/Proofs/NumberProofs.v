(** Which texts are numbers. *)

From Verif.Model Require Import Base ZMQConfig.
From Verif.Spec Require Import NumberSpec.
From Coq Require Import Ascii DecimalString DecimalZ DecimalFacts.
From Verif.Proofs Require Import ZMQConfigProofs.

Lemma blank_spec c : is_blank c = true ↔ blank c.
Proof.
  unfold is_blank, blank, code. rewrite !orb_true_iff, !andb_true_iff, N.eqb_eq, !N.leb_le. lia.
Qed.
Lemma digit_spec c : is_digit c = true ↔ digit c.
Proof. unfold is_digit, digit, code. rewrite andb_true_iff, !N.leb_le. lia. Qed.

(** ** The value of digits *)
Fixpoint valu (u : Decimal.uint) (acc : Z) : Z :=
  match u with
  | Decimal.Nil => acc
  | Decimal.D0 u => valu u (10 * acc) | Decimal.D1 u => valu u (10 * acc + 1) | Decimal.D2 u => valu u (10 * acc + 2) | Decimal.D3 u => valu u (10 * acc + 3)
  | Decimal.D4 u => valu u (10 * acc + 4) | Decimal.D5 u => valu u (10 * acc + 5) | Decimal.D6 u => valu u (10 * acc + 6) | Decimal.D7 u => valu u (10 * acc + 7)
  | Decimal.D8 u => valu u (10 * acc + 8) | Decimal.D9 u => valu u (10 * acc + 9)
  end.
Lemma valu_pos u : ∀ p, Z.pos (Pos.of_uint_acc u p) = valu u (Z.pos p).
Proof. induction u; intros p; cbn [Pos.of_uint_acc valu]; [reflexivity|rewrite IHu; f_equal; lia..]. Qed.
Lemma valu_of u : Z.of_uint u = valu u 0.
Proof.
  unfold Z.of_uint. induction u; cbn [Pos.of_uint valu]; [reflexivity|exact IHu|..]; cbn [Z.of_N]; rewrite valu_pos; reflexivity.
Qed.
Fixpoint vals (s : string) (acc : Z) : Z := match s with EmptyString => acc | String c s => vals s (10 * acc + (code c - 48)) end.
Lemma char_spec c u : uint_of_char c (Some u) = None ∧ is_digit c = false ∨
  is_digit c = true ∧ ∃ u', uint_of_char c (Some u) = Some u' ∧ ∀ acc, valu u' acc = valu u (10 * acc + (code c - 48)).
Proof.
  destruct c as [[] [] [] [] [] [] [] []]; try (left; split; reflexivity); right; (split; [reflexivity|]); (eexists; split; [reflexivity|]); intros acc; cbn [valu]; f_equal; match goal with |- context[code ?c] => let v := eval vm_compute in (code c) in change (code c) with v end; lia.
Qed.
Lemma uint_spec s : match NilEmpty.uint_of_string s with
  | Some u => digits s = true ∧ ∀ acc, valu u acc = vals s acc
  | None => digits s = false end.
Proof.
  induction s as [|c s IH]; [split; reflexivity|]. cbn [NilEmpty.uint_of_string digits vals]. destruct (NilEmpty.uint_of_string s) as [u|].
  - destruct IH as [IH1 IH2]. destruct (char_spec c u) as [[-> ->]|(-> & u' & -> & Hu)]; [reflexivity|]. rewrite IH1. split; [reflexivity|]. intros acc. rewrite Hu. apply IH2.
  - rewrite IH, andb_false_r. destruct c as [[] [] [] [] [] [] [] []]; reflexivity.
Qed.
Lemma int_spec s z : Z.of_int <$> NilZero.int_of_string s = Some z ↔
  ∃ c r, digits (String c r) = true ∧ (s = String c r ∧ z = vals (String c r) 0 ∨ s = String "-" (String c r) ∧ z = - vals (String c r) 0).
Proof.
  assert (Hz : ∀ s, NilZero.uint_of_string s = match s with EmptyString => None | _ => NilEmpty.uint_of_string s end) by (intros []; reflexivity).
  unfold NilZero.int_of_string. destruct s as [|c s]; [split; [discriminate|]; intros (? & ? & _ & [[? _]|[? _]]); discriminate|].
  destruct (Ascii.eqb_spec c "-") as [->|Hc].
  - rewrite Hz. pose proof (uint_spec s) as Hs. destruct s as [|c s]; [split; [discriminate|]; intros (c & r & Hd & [[[= <- <-] _]|[? _]]); [discriminate Hd|discriminate]|].
    destruct (NilEmpty.uint_of_string (String c s)) as [u|].
    + destruct Hs as [H1 H2]. cbn [option_map fmap option_fmap]. cbn [Z.of_int]. rewrite valu_of, H2. split.
      * intros [= <-]. exists c, s. auto.
      * intros (c' & r & Hd & [[[= <- <-] ->]|[[= <- <-] ->]]); [discriminate Hd|reflexivity].
    + split; [discriminate|]. intros (c' & r & Hd & [[[= <- <-] ->]|[[= <- <-] ->]]); [discriminate Hd|congruence].
  - rewrite Hz. pose proof (uint_spec (String c s)) as Hs. destruct (NilEmpty.uint_of_string (String c s)) as [u|].
    + destruct Hs as [H1 H2]. cbn [option_map fmap option_fmap]. cbn [Z.of_int]. rewrite valu_of, H2. split.
      * intros [= <-]. exists c, s. auto.
      * intros (c' & r & Hd & [[[= <- <-] ->]|[[= -> _] _]]); [reflexivity|done].
    + split; [discriminate|]. intros (c' & r & Hd & [[[= <- <-] ->]|[[= -> _] _]]); [congruence|done].
Qed.

(** ** Underscores *)
Fixpoint chars (cs : list ascii) : string := match cs with [] => "" | c :: cs => String c (chars cs) end.
Lemma digits_chars cs : digits (chars cs) = true ↔ Forall digit cs.
Proof.
  induction cs as [|c cs IH]; [split; [constructor|reflexivity]|]. cbn. rewrite andb_true_iff, digit_spec, IH, Forall_cons. reflexivity.
Qed.
Lemma vals_chars cs acc : vals (chars cs) acc = foldl (λ n c, 10 * n + (code c - 48)) acc cs.
Proof. revert acc; induction cs as [|c cs IH]; intros acc; [reflexivity|apply IH]. Qed.
Lemma under_true d : ∀ s, no_underscores true s = Some d → digits d = true → ∃ ds, s = further ds ∧ d = chars ds.*2.
Proof.
  induction d as [|c d IH]; intros s E Hd.
  - exists []. split; [|reflexivity]. destruct s as [|c s]; [reflexivity|]. cbn [no_underscores] in E. destruct (Ascii.eqb c "_").
    + destruct s as [|d s]; [discriminate|]. destruct (is_digit d) eqn:Ed; [|discriminate]. cbn [andb no_underscores] in E. destruct (Ascii.eqb_spec d "_") as [->|_]; [discriminate Ed|]. destruct (no_underscores (is_digit d) s); discriminate.
    + destruct (no_underscores (is_digit c) s); discriminate.
  - cbn [digits] in Hd. apply andb_true_iff in Hd as [Hc Hd]. destruct s as [|c' s]; [discriminate|]. cbn [no_underscores] in E. destruct (Ascii.eqb_spec c' "_") as [->|Hu].
    + destruct s as [|c' s]; [discriminate|]. destruct (is_digit c') eqn:Ed; [|discriminate]. cbn [andb] in E. cbn [no_underscores] in E. destruct (Ascii.eqb_spec c' "_") as [->|_]; [discriminate Ed|]. rewrite Ed in E.
      destruct (no_underscores true s) as [d'|] eqn:E'; [|discriminate]. injection E as -> ->. destruct (IH s E' Hd) as (ds & -> & ->). exists ((true, c) :: ds). split; reflexivity.
    + destruct (no_underscores (is_digit c') s) as [d'|] eqn:E'; [|discriminate]. injection E as -> ->. rewrite Hc in E'. destruct (IH s E' Hd) as (ds & -> & ->). exists ((false, c) :: ds). split; reflexivity.
Qed.
Lemma under_false c d s : no_underscores false s = Some (String c d) → digits (String c d) = true → ∃ ds, s = String c (further ds) ∧ d = chars ds.*2.
Proof.
  cbn [digits]. intros E [Hc Hd]%andb_true_iff. destruct s as [|c' s]; [discriminate|]. cbn [no_underscores] in E. destruct (Ascii.eqb_spec c' "_") as [->|Hu]; [destruct s; discriminate|].
  destruct (no_underscores (is_digit c') s) as [d'|] eqn:E'; [|discriminate]. injection E as -> ->. rewrite Hc in E'. destruct (under_true _ _ E' Hd) as (ds & -> & ->). eauto.
Qed.
Lemma further_true ds : Forall (λ p, digit p.2) ds → no_underscores true (further ds) = Some (chars ds.*2).
Proof.
  induction 1 as [|[b c] ds Hc _ IH]; [reflexivity|]. cbn [snd] in Hc. apply digit_spec in Hc. pose proof (digit_facts _ Hc) as (_ & _ & Hu & _).
  assert (E : ∀ af, no_underscores af (String c (further ds)) = Some (String c (chars ds.*2))). { intros af. cbn [no_underscores]. destruct (Ascii.eqb_spec c "_") as [|_]; [done|]. rewrite Hc, IH. reflexivity. }
  cbn [further foldr fst snd]. fold (further ds). destruct b; [|exact (E _)].
  change ((if is_digit c then no_underscores false (String c (further ds)) else None) = Some (String c (chars ds.*2))). rewrite Hc. exact (E false).
Qed.
Lemma further_false c ds : digit c → Forall (λ p, digit p.2) ds → no_underscores false (String c (further ds)) = Some (chars (c :: ds.*2)).
Proof.
  intros Hc Hds. apply digit_spec in Hc. pose proof (digit_facts _ Hc) as (_ & _ & Hu & _). cbn [no_underscores]. destruct (Ascii.eqb_spec c "_") as [|_]; [done|]. rewrite Hc, further_true by exact Hds. reflexivity.
Qed.

(** ** Blanks *)
Lemma left_spec s : ∃ l, blanks l ∧ s = l +:+ strip_left s.
Proof.
  induction s as [|c s (l & Hl & E)]; [exists ""; split; [constructor|reflexivity]|]. cbn [strip_left]. destruct (is_blank c) eqn:Ec; [|exists ""; split; [constructor|reflexivity]].
  exists (String c l). split; [constructor; [apply blank_spec, Ec|exact Hl]|]. rewrite app_cons, <- E. reflexivity.
Qed.
Lemma right_spec s : ∃ r, blanks r ∧ s = strip_right s +:+ r.
Proof.
  induction s as [|c s (r & Hr & E)]; [exists ""; split; [constructor|reflexivity]|]. cbn [strip_right]. destruct (strip_right s) as [|c' s'] eqn:Es.
  - destruct (is_blank c) eqn:Ec; [exists (String c s)|exists s]; (split; [|reflexivity]); rewrite E; [constructor; [apply blank_spec, Ec|exact Hr]|exact Hr].
  - exists r. split; [exact Hr|]. rewrite app_cons, <- E. reflexivity.
Qed.
Lemma left_blanks l s : blanks l → strip_left (l +:+ s) = strip_left s.
Proof. induction l as [|c l IH]; [reflexivity|]. intros [Hc Hl]%Forall_cons. rewrite app_cons. cbn [strip_left]. rewrite (proj2 (blank_spec c)) by exact Hc. apply IH, Hl. Qed.
Lemma right_none r : blanks r → strip_right r = "".
Proof. induction r as [|c r IH]; [reflexivity|]. intros [Hc Hl]%Forall_cons. cbn [strip_right]. rewrite IH by exact Hl. rewrite (proj2 (blank_spec c)) by exact Hc. reflexivity. Qed.
Definition solid (s : string) : Prop := Forall (λ c, is_blank c = false) (String.list_ascii_of_string s).
Lemma right_solid s r : solid s → blanks r → strip_right (s +:+ r) = s.
Proof.
  intros Hs Hr. induction s as [|c s IH]; [apply right_none, Hr|]. apply Forall_cons in Hs as [Hc Hs]. rewrite app_cons. cbn [strip_right]. rewrite IH by exact Hs. destruct s; [rewrite Hc|]; reflexivity.
Qed.
Lemma further_solid ds : Forall (λ p, digit p.2) ds → solid (further ds).
Proof.
  induction 1 as [|[b c] ds Hc _ IH]; [constructor|]. cbn [snd] in Hc. apply digit_spec, digit_facts in Hc as (Hc & _). cbn [further foldr fst snd]. fold (further ds).
  unfold solid in *. destruct b; [change ("_" +:+ String c (further ds)) with (String "_" (String c (further ds)))|change ("" +:+ String c (further ds)) with (String c (further ds))]; cbn [String.list_ascii_of_string]; repeat (constructor; [solve [reflexivity|exact Hc]|]); exact IH.
Qed.

Lemma string_app_assoc (a b c : string) : (a +:+ b) +:+ c = a +:+ b +:+ c.
Proof. induction a as [|x a IH]; [reflexivity|]. rewrite !app_cons, IH. reflexivity. Qed.

Theorem py_int_written s z : py_int s = Some z ↔ written s z.
Proof.
  unfold py_int. split.
  - destruct (left_spec s) as (l & Hl & E1). destruct (right_spec (strip_left s)) as (r & Hr & E2). set (t := strip_right (strip_left s)) in *. clearbody t. rewrite E2 in E1. clear E2. subst s.
    intros H.
    assert (Hb : ∃ sign b, t = sign +:+ b ∧ (sign = "" ∨ sign = "+" ∧ ∀ b', b ≠ String "-" b') ∧ match no_underscores false b with None => None | Some d => Z.of_int <$> NilZero.int_of_string d end = Some z).
    { destruct t as [|c t]; [discriminate|]. destruct (Ascii.eqb_spec c "+") as [->|Hc].
      - destruct t as [|c t]; [discriminate|]. destruct (Ascii.eqb_spec c "-") as [->|Hc]; [discriminate|]. exists "+", (String c t). split; [reflexivity|]. split; [right; split; [reflexivity|congruence]|]. revert H. clear -Hc. destruct c as [[] [] [] [] [] [] [] []]; try (intros H; exact H). done.
      - exists "", (String c t). split; [reflexivity|]. split; [auto|]. revert H. clear -Hc. destruct c as [[] [] [] [] [] [] [] []]; try (intros H; exact H). done. }
    clear H. destruct Hb as (sign & b & -> & Hsign & H). destruct (no_underscores false b) as [d|] eqn:Ed; [|discriminate].
    apply int_spec in H as (c & r0 & Hd & [[-> ->]|[-> ->]]).
    + destruct (under_false _ _ _ Ed Hd) as (ds & -> & ->). change (String c (chars ds.*2)) with (chars (c :: ds.*2)) in *. apply digits_chars, Forall_cons in Hd as [Hc Hds].
      exists l, sign, c, ds, r. split; [by rewrite !string_app_assoc|]. split; [exact Hl|]. split; [exact Hr|]. split; [exact Hc|]. split; [exact (proj1 (Forall_fmap snd digit ds) Hds)|]. rewrite vals_chars. destruct Hsign as [-> |[-> _]]; auto.
    + destruct b as [|c' b]; [discriminate|]. cbn [no_underscores] in Ed. destruct (Ascii.eqb_spec c' "_") as [->|_]; [destruct b; discriminate|].
      destruct (no_underscores (is_digit c') b) as [d|] eqn:Eb; [|discriminate]. injection Ed as -> ->. change (is_digit "-") with false in Eb.
      destruct (under_false _ _ _ Eb Hd) as (ds & -> & ->). change (String c (chars ds.*2)) with (chars (c :: ds.*2)) in *. apply digits_chars, Forall_cons in Hd as [Hc Hds].
      destruct Hsign as [-> |[_ Hne]]; [|by destruct (Hne (String c (further ds)))].
      exists l, "-", c, ds, r. split; [by rewrite !string_app_assoc|]. split; [exact Hl|]. split; [exact Hr|]. split; [exact Hc|]. split; [exact (proj1 (Forall_fmap snd digit ds) Hds)|]. rewrite vals_chars. auto.
  - intros (l & sign & d & ds & r & -> & Hl & Hr & Hd & Hds & Hz).
    assert (Hs : sign = "" ∨ sign = "+" ∨ sign = "-") by tauto. pose proof (proj2 (digit_spec d) Hd) as Hdd. pose proof (digit_facts _ Hdd) as (Hnb & _ & _ & Hnp & Hnm).
    set (b := String d (further ds)) in *. assert (Hbs : solid b) by (constructor; [exact Hnb|apply further_solid, Hds]).
    assert (E : strip_right (strip_left (l +:+ sign +:+ b +:+ r)) = sign +:+ b).
    { rewrite left_blanks by exact Hl. assert (E1 : strip_left (sign +:+ b +:+ r) = (sign +:+ b) +:+ r).
      { destruct Hs as [-> |[-> | ->]]; [|reflexivity|reflexivity]. subst b. change (strip_left (String d (further ds +:+ r)) = String d (further ds +:+ r)). cbn [strip_left]. rewrite Hnb. reflexivity. }
      rewrite E1. apply right_solid; [|exact Hr]. destruct Hs as [-> |[-> | ->]]; [exact Hbs|constructor; [reflexivity|exact Hbs]|constructor; [reflexivity|exact Hbs]]. }
    rewrite E. clear E. pose proof (further_false d ds Hd Hds) as Eu. fold b in Eu.
    assert (Hv : digits (chars (d :: ds.*2)) = true) by (apply digits_chars; constructor; [exact Hd|exact (proj2 (Forall_fmap snd digit ds) Hds)]).
    assert (Ei : Z.of_int <$> NilZero.int_of_string (chars (d :: ds.*2)) = Some (value (d :: ds.*2))). { apply int_spec. exists d, (chars ds.*2). split; [exact Hv|]. left. split; [reflexivity|]. symmetry. apply (vals_chars (d :: ds.*2)). }
    destruct Hz as [[-> ->]|[[-> ->]|[-> ->]]].
    + change ("" +:+ b) with b. assert (Eb : match b with String "+" (String "-" _) => None | String "+" s' => Some s' | _ => Some b end = Some b).
      { subst b. clear -Hnp. destruct d as [[] [] [] [] [] [] [] []]; try reflexivity. done. }
      rewrite Eb, Eu. exact Ei.
    + change ("+" +:+ b) with (String "+" b). assert (Eb : match b with String "-" _ => None | _ => Some b end = Some b).
      { subst b. clear -Hnm. destruct d as [[] [] [] [] [] [] [] []]; try reflexivity. done. }
      cbv beta iota zeta. rewrite Eb, Eu. exact Ei.
    + change ("-" +:+ b) with (String "-" b). cbn iota. cbn [no_underscores]. change (Ascii.eqb "-" "_") with false. change (is_digit "-") with false. cbn iota. rewrite Eu. cbn [fmap option_fmap option_map].
      apply int_spec. exists d, (chars ds.*2). split; [exact Hv|]. right. split; [reflexivity|]. f_equal. symmetry. apply (vals_chars (d :: ds.*2)).
Qed.
