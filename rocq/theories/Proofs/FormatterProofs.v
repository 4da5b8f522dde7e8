(** * Formatting numbers *)

From stdpp Require Import pretty.
From Coq Require Import Ascii.
From Verif.Model Require Import Base Formatter.
From Verif.Spec Require Import FormatterSpec.

(** ** Decimal digits *)
Lemma reads_from_app s1 s2 : ∀ a, reads_from a (s1 +:+ s2) = reads_from (reads_from a s1) s2.
Proof. induction s1 as [|c s1 IH]; intros a; [done|]. apply IH. Qed.
Lemma chars_app s1 s2 : chars (s1 +:+ s2) = chars s1 ++ chars s2.
Proof. induction s1 as [|c s1 IH]; [done|]. change (c :: chars (s1 +:+ s2) = c :: chars s1 ++ chars s2). f_equal. exact IH. Qed.
Lemma dec_small n : 0 <= n < 10 → ∃ a, dec n = String a "" ∧ digit a = n.
Proof.
  intros H. assert (n = 0 ∨ n = 1 ∨ n = 2 ∨ n = 3 ∨ n = 4 ∨ n = 5 ∨ n = 6 ∨ n = 7 ∨ n = 8 ∨ n = 9) as Hn by lia.
  destruct Hn as [->|[->|[->|[->|[->|[->|[->|[->|[->| ->]]]]]]]]]; eexists; (split; [vm_compute; reflexivity|reflexivity]).
Qed.
Lemma pretty_go_app x : ∀ s, pretty_N_go x s = pretty_N_go x "" +:+ s.
Proof.
  induction (N.lt_wf_0 x) as [x _ IH]. intros s. destruct (decide (0 < x)%N) as [Hx|Hx].
  - rewrite (pretty_N_go_step x s) by done. rewrite (pretty_N_go_step x "") by done.
    assert (Hlt : (x `div` 10 < x)%N) by (apply N.div_lt; lia). set (c := pretty_N_char _).
    rewrite (IH _ Hlt (String c s)), (IH _ Hlt (String c "")).
    clear. induction (pretty_N_go (x `div` 10) "") as [|a t IH]; [done|].
    change (String a (t +:+ String c s) = String a ((t +:+ String c "") +:+ s)). f_equal. exact IH.
  - assert (x = 0%N) as -> by lia. rewrite !pretty_N_go_0. done.
Qed.
Lemma dec_step n : 10 <= n → dec n = dec (n / 10) +:+ dec (n mod 10).
Proof.
  intros Hn. destruct (dec_small (n mod 10)) as (a & Ea & Hd); [apply Z.mod_pos_bound; lia|].
  rewrite Ea. unfold dec, pretty, pretty_N. rewrite decide_False by lia.
  assert (0 < n / 10) by (apply Z.div_str_pos; lia). rewrite (decide_False (P := Z.to_N (n / 10) = 0%N)) by lia.
  rewrite pretty_N_go_step by lia. rewrite pretty_go_app. f_equal.
  - f_equal. rewrite Z2N.inj_div by lia. done.
  - f_equal. unfold dec, pretty, pretty_N in Ea. rewrite Z2N.inj_mod in Ea by lia. change (Z.to_N 10) with 10%N in *.
    set (m := (Z.to_N n `mod` 10)%N) in *. assert (m < 10)%N by (apply N.mod_lt; lia).
    destruct (decide (m = 0%N)) as [->|]; [injection Ea as <-; done|]. rewrite pretty_N_go_step in Ea by lia.
    rewrite N.div_small in Ea by lia. rewrite pretty_N_go_0 in Ea. injection Ea as <-. f_equal. rewrite N.mod_small; lia.
Qed.
Lemma dec_ind (P : Z → Prop) : (∀ n, 0 <= n < 10 → P n) → (∀ n, 10 <= n → P (n / 10) → P n) → ∀ n, 0 <= n → P n.
Proof.
  intros H0 HS. apply Zlt_0_ind. intros n IH Hn. destruct (decide (n < 10)) as [H|H]; [apply H0; lia|].
  apply HS; [lia|]. apply IH. split; [apply Z.div_pos; lia|apply Z.div_lt; lia].
Qed.
Lemma dec_reads n : 0 <= n → reads (dec n) = n.
Proof.
  revert n. apply dec_ind.
  - intros n Hn. destruct (dec_small n Hn) as (a & -> & <-). unfold reads. cbn [reads_from]. lia.
  - intros n Hn IH. rewrite dec_step by done. unfold reads in *. rewrite reads_from_app, IH.
    destruct (dec_small (n mod 10)) as (a & -> & Hd); [apply Z.mod_pos_bound; lia|]. cbn [reads_from]. rewrite Hd. pose proof (Z.div_mod n 10 ltac:(lia)). lia.
Qed.
Lemma dec_digits n : 0 <= n → Forall is_digit (chars (dec n)) ∧ chars (dec n) ≠ [].
Proof.
  revert n. apply dec_ind.
  - intros n Hn. destruct (dec_small n Hn) as (a & -> & Hd). cbn. split; [|done]. constructor; [|constructor]. unfold is_digit. lia.
  - intros n Hn [IH1 IH2]. rewrite dec_step by done. rewrite chars_app.
    destruct (dec_small (n mod 10)) as (a & -> & Hd); [apply Z.mod_pos_bound; lia|].
    split; [|destruct (chars (dec (n / 10))); done]. apply Forall_app. split; [done|]. constructor; [|constructor]. unfold is_digit.
    pose proof (Z.mod_pos_bound n 10 ltac:(lia)). lia.
Qed.

(** ** Rounding *)
Lemma nearest_bound p q : 0 < q → - q <= 2 * (p - nearest p q * q) <= q.
Proof.
  intros Hq. unfold nearest. pose proof (Z.div_mod p q ltac:(lia)). pose proof (Z.mod_pos_bound p q Hq).
  set (d := p / q) in *. set (r := p mod q) in *.
  destruct (Z.ltb_spec (2 * r) q); [nia|]. destruct (Z.ltb_spec q (2 * r)); [nia|]. destruct (Z.even d); nia.
Qed.
Lemma nearest_ge p q k : 0 < q → k * q <= p → k <= nearest p q.
Proof.
  intros Hq Hk. assert (k <= p / q) by (apply Z.div_le_lower_bound; lia). unfold nearest.
  destruct (_ <? q); [lia|]. destruct (q <? _); [lia|]. destruct (Z.even _); lia.
Qed.
Lemma nearest_le p q k : 0 < q → p <= k * q → nearest p q <= k.
Proof.
  intros Hq Hk. pose proof (nearest_bound p q Hq). nia.
Qed.

(** ** Floats *)
Definition scale (p q : Z) : Z := 62 - Z.log2 (1024 * p / q).
Lemma scale_bounds p q : 0 < q → q <= 1024 * p → let L := Z.log2 (1024 * p / q) in 0 <= L ∧ 2 ^ L * q <= 1024 * p < 2 ^ (L + 1) * q.
Proof.
  intros Hq Hp L. assert (H1 : 1 <= 1024 * p / q) by (apply Z.div_le_lower_bound; lia).
  pose proof (Z.log2_spec (1024 * p / q) ltac:(lia)) as [Ha Hb]. fold L in Ha, Hb. split; [apply Z.log2_nonneg|].
  pose proof (Z.div_mod (1024 * p) q ltac:(lia)). pose proof (Z.mod_pos_bound (1024 * p) q Hq). change (L + 1) with (Z.succ L). nia.
Qed.
(** A quotient at least an integer is rounded to a float at least that integer, and the
    same the other way round. *)
Lemma float_pos p q : 0 < q → 0 < (float_quotient p q).2.
Proof.
  intros Hq. unfold float_quotient. fold (scale p q). destruct (Z.ltb_spec (scale p q) 0); cbn; [lia|]. apply Z.pow_pos_nonneg; lia.
Qed.
Lemma float_ge p q k : 0 < q → 0 < k <= 2 ^ 52 → k * q <= p → let '(a, b) := float_quotient p q in k * b <= a.
Proof.
  intros Hq Hk Hp. unfold float_quotient. fold (scale p q). destruct (Z.ltb_spec (scale p q) 0) as [He|He].
  - destruct (scale_bounds p q Hq ltac:(nia)) as [HL [H1 _]]. unfold scale in *. set (L := Z.log2 (1024 * p / q)) in *.
    replace (- (62 - L)) with (L - 62) by lia.
    assert (Hn : 2 ^ 52 <= nearest p (q * 2 ^ (L - 62))).
    { apply nearest_ge; [apply Z.mul_pos_pos; [lia|apply Z.pow_pos_nonneg; lia]|].
      assert (2 ^ L = 2 ^ 62 * 2 ^ (L - 62)) as E by (rewrite <- Z.pow_add_r by lia; f_equal; lia). rewrite E in H1.
      change (2 ^ 62) with (1024 * 2 ^ 52) in H1. nia. }
    assert (1 <= 2 ^ (L - 62)) by (pose proof (Z.pow_pos_nonneg 2 (L - 62) ltac:(lia) ltac:(lia)); lia). nia.
  - apply nearest_ge; [done|]. pose proof (Z.pow_pos_nonneg 2 (scale p q) ltac:(lia) He). nia.
Qed.
Lemma float_close p q : 0 < q → q <= 1024 * p → p < 2 ^ 52 * q → let '(a, b) := float_quotient p q in
  - q <= 2 * (p * b - a * q) <= q ∧ 2 ^ 52 * q <= p * b.
Proof.
  intros Hq Hp Hlt. destruct (scale_bounds p q Hq Hp) as [HL [H1 H2]]. unfold float_quotient. fold (scale p q). unfold scale.
  set (L := Z.log2 (1024 * p / q)) in *.
  assert (L < 62).
  { apply (Z.pow_lt_mono_r_iff 2); [lia|lia|]. change (2 ^ 62) with (1024 * 2 ^ 52). nia. }
  destruct (Z.ltb_spec (62 - L) 0); [lia|]. pose proof (nearest_bound (p * 2 ^ (62 - L)) q Hq). split; [lia|].
  assert (2 ^ 62 = 2 ^ L * 2 ^ (62 - L)) as E by (rewrite <- Z.pow_add_r by lia; f_equal; lia).
  change (2 ^ 62) with (1024 * 2 ^ 52) in E. pose proof (Z.pow_pos_nonneg 2 (62 - L) ltac:(lia) ltac:(lia)). nia.
Qed.

(** ** Sizes *)
Lemma bytes_here u us p q : p < 1024 * q → format_bytes_from (u :: us) p q =
  if String.eqb u "b" || String.eqb u "k" then Ok (dec (p / q) +:+ u) else Ok (one_decimal p q +:+ u).
Proof. intros H. cbn [format_bytes_from]. destruct (Z.leb_spec (1024 * q) p); [lia|done]. Qed.
Lemma bytes_next u us p q : 1024 * q <= p → format_bytes_from (u :: us) p q = format_bytes_from us p (q * 1024).
Proof. intros H. cbn [format_bytes_from]. destruct (Z.leb_spec (1024 * q) p); [done|lia]. Qed.
Lemma one_decimal_spec p q : 0 < q → 0 <= p → ∃ d, 0 <= d ∧ one_decimal p q = dec (d / 10) +:+ "." +:+ dec (d mod 10) ∧ rounds d p q.
Proof.
  intros Hq Hp. exists (nearest (10 * p) q). split; [|split; [done|]].
  - apply nearest_ge; lia.
  - unfold rounds. pose proof (nearest_bound (10 * p) q Hq). lia.
Qed.

(** ** Thousands *)
Lemma groups_fuel f : ∀ n, 0 <= n → (Z.to_nat n < f)%nat → ∀ f', (Z.to_nat n < f')%nat → groups f n = groups f' n.
Proof.
  induction f as [|f IH]; intros n Hn Hf f' Hf'; [lia|]. destruct f' as [|f']; [lia|]. cbn [groups].
  destruct (Z.ltb_spec n 1000); [done|]. f_equal. assert (n / 1000 < n) by (apply Z.div_lt; lia). assert (0 <= n / 1000) by (apply Z.div_pos; lia).
  apply IH; lia.
Qed.
Lemma format_integer_eq n : 0 <= n → format_integer n =
  if n <? 1000 then dec n else format_integer (n / 1000) +:+ "," +:+ dec (n mod 1000 / 100) +:+ dec (n mod 100 / 10) +:+ dec (n mod 10).
Proof.
  intros Hn. unfold format_integer at 1. cbn [groups]. destruct (Z.ltb_spec n 1000); [done|]. f_equal.
  assert (n / 1000 < n) by (apply Z.div_lt; lia). assert (0 <= n / 1000) by (apply Z.div_pos; lia). apply groups_fuel; lia.
Qed.
Lemma mod_mod_div n a b : 0 < a → 0 < b → n mod (a * b) / a = (n / a) mod b.
Proof.
  intros Ha Hb. rewrite Z.rem_mul_r by lia. rewrite (Z.mul_comm a), Z.div_add by lia.
  rewrite Z.div_small by (apply Z.mod_pos_bound; lia). lia.
Qed.
Lemma mod_1000 n : n mod 1000 / 100 = (n / 100) mod 10.
Proof. exact (mod_mod_div n 100 10 ltac:(lia) ltac:(lia)). Qed.
Lemma mod_100 n : n mod 100 / 10 = (n / 10) mod 10.
Proof. exact (mod_mod_div n 10 10 ltac:(lia) ltac:(lia)). Qed.
Lemma dec_thousand n : 1000 <= n → dec n = dec (n / 1000) +:+ dec (n mod 1000 / 100) +:+ dec (n mod 100 / 10) +:+ dec (n mod 10).
Proof.
  intros Hn. assert (100 <= n / 10) by (apply Z.div_le_lower_bound; lia). assert (10 <= n / 100) by (apply Z.div_le_lower_bound; lia).
  rewrite (dec_step n) by lia. rewrite (dec_step (n / 10)) by lia. rewrite Z.div_div by lia. change (10 * 10) with 100.
  rewrite (dec_step (n / 100)) by lia. rewrite Z.div_div by lia. change (100 * 10) with 1000.
  rewrite mod_1000, mod_100.
  assert (assoc : ∀ a b c, (a +:+ b) +:+ c = a +:+ b +:+ c).
  { intros a b c. induction a as [|x a IH]; [done|]. change (String x ((a +:+ b) +:+ c) = String x (a +:+ b +:+ c)). by rewrite IH. }
  rewrite !assoc. done.
Qed.
Lemma is_digit_not_comma a : is_digit a → a ≠ ","%char.
Proof. intros H ->. unfold is_digit in H. vm_compute in H. destruct H as [H _]. by apply H. Qed.
Lemma without_digits l : Forall is_digit l → List.filter (λ a, negb (Ascii.eqb a ","%char)) l = l.
Proof.
  induction 1 as [|a l Ha _ IH]; [done|]. cbn. destruct (Ascii.eqb_spec a ","%char); [by destruct (is_digit_not_comma a)|]. cbn. by rewrite IH.
Qed.
Lemma three_digits n : 0 <= n → ∃ a b c, chars (dec (n mod 1000 / 100) +:+ dec (n mod 100 / 10) +:+ dec (n mod 10)) = [a; b; c] ∧ is_digit a ∧ is_digit b ∧ is_digit c.
Proof.
  intros Hn.
  destruct (dec_small (n mod 1000 / 100)) as (a & Ea & Ha).
  { rewrite mod_1000. apply Z.mod_pos_bound. lia. }
  destruct (dec_small (n mod 100 / 10)) as (b & Eb & Hb).
  { rewrite mod_100. apply Z.mod_pos_bound. lia. }
  destruct (dec_small (n mod 10)) as (c & Ec & Hc); [apply Z.mod_pos_bound; lia|].
  exists a, b, c. rewrite Ea, Eb, Ec. split; [done|]. unfold is_digit. rewrite Ha, Hb, Hc.
  rewrite mod_1000, mod_100.
  pose proof (Z.mod_pos_bound (n / 100) 10 ltac:(lia)). pose proof (Z.mod_pos_bound (n / 10) 10 ltac:(lia)). pose proof (Z.mod_pos_bound n 10 ltac:(lia)). lia.
Qed.
Lemma thousands_ind (P : Z → Prop) : (∀ n, 0 <= n < 1000 → P n) → (∀ n, 1000 <= n → P (n / 1000) → P n) → ∀ n, 0 <= n → P n.
Proof.
  intros H0 HS. apply Zlt_0_ind. intros n IH Hn. destruct (decide (n < 1000)) as [H|H]; [apply H0; lia|].
  apply HS; [lia|]. apply IH. split; [apply Z.div_pos; lia|apply Z.div_lt; lia].
Qed.
Lemma format_integer_digits n : 0 <= n → without ","%char (format_integer n) = chars (dec n).
Proof.
  revert n. apply thousands_ind; intros n Hn.
  - rewrite format_integer_eq by lia. destruct (Z.ltb_spec n 1000); [|lia]. apply without_digits. apply dec_digits. lia.
  - intros IH. rewrite format_integer_eq by lia. destruct (Z.ltb_spec n 1000); [lia|]. rewrite (dec_thousand n) by lia.
    destruct (three_digits n ltac:(lia)) as (a & b & c & E & Ha & Hb & Hc). unfold without in *.
    rewrite (chars_app (dec (n / 1000))), (chars_app (format_integer (n / 1000))), (chars_app ","), E, List.filter_app, IH. f_equal.
    change (chars ",") with [","%char]. change (List.filter (λ a, negb (Ascii.eqb a ","%char)) [a; b; c] = [a; b; c]).
    apply without_digits. do 3 (apply Forall_cons_2; [done|]). apply Forall_nil_2.
Qed.
Lemma digits_length n : 0 <= n < 1000 → (1 <= length (chars (dec n)) <= 3)%nat.
Proof.
  intros Hn. destruct (decide (n < 10)) as [H|H]; [destruct (dec_small n) as (a & -> & _); [lia|cbn; lia]|].
  assert (Hs : ∀ m, 0 <= m < 10 → length (chars (dec m)) = 1%nat) by (intros m Hm; destruct (dec_small m Hm) as (a & -> & _); done).
  rewrite dec_step by lia. rewrite chars_app, app_length. rewrite (Hs (n mod 10)) by (apply Z.mod_pos_bound; lia).
  assert (n / 10 < 100) by (apply Z.div_lt_upper_bound; lia). assert (1 <= n / 10) by (apply Z.div_le_lower_bound; lia).
  destruct (decide (n / 10 < 10)); [rewrite Hs by lia; lia|].
  rewrite dec_step by lia. rewrite chars_app, app_length. rewrite (Hs ((n / 10) mod 10)) by (apply Z.mod_pos_bound; lia).
  rewrite Hs; [lia|]. split; [apply Z.div_pos; lia|apply Z.div_lt_upper_bound; lia].
Qed.
(** Counted from the right, every fourth character is a comma and no other. *)
Lemma format_integer_commas n : 0 <= n → ∀ i a, reverse (chars (format_integer n)) !! i = Some a → a = ","%char ↔ (i mod 4 = 3)%nat.
Proof.
  revert n. apply (thousands_ind (λ n, ∀ i a, reverse (chars (format_integer n)) !! i = Some a → a = ","%char ↔ (i mod 4 = 3)%nat)); intros n Hn.
  - intros i a Hi. rewrite format_integer_eq in Hi by lia. destruct (Z.ltb_spec n 1000); [|lia].
    pose proof (digits_length n Hn). pose proof (lookup_lt_Some _ _ _ Hi) as Hl. rewrite reverse_length in Hl.
    rewrite Nat.mod_small by lia. split; [|lia]. intros ->. exfalso. eapply is_digit_not_comma; [|done].
    destruct (dec_digits n ltac:(lia)) as [HF _]. rewrite Forall_forall in HF. apply HF. apply elem_of_reverse. by eapply elem_of_list_lookup_2.
  - intros IH i x Hi. rewrite format_integer_eq in Hi by lia. destruct (Z.ltb_spec n 1000); [lia|].
    destruct (three_digits n ltac:(lia)) as (a & b & c & E & Ha & Hb & Hc). rewrite chars_app, (chars_app ","), E in Hi.
    rewrite reverse_app in Hi. change (reverse (chars "," ++ [a; b; c])) with [c; b; a; ","%char] in Hi.
    destruct i as [|[|[|[|i]]]].
    + injection Hi as <-. split; [intros ->; by destruct (is_digit_not_comma ","%char Hc)|done].
    + injection Hi as <-. split; [intros ->; by destruct (is_digit_not_comma ","%char Hb)|done].
    + injection Hi as <-. split; [intros ->; by destruct (is_digit_not_comma ","%char Ha)|done].
    + injection Hi as <-. done.
    + cbn [app lookup list_lookup] in Hi. rewrite (IH i x Hi). replace (S (S (S (S i)))) with (i + 1 * 4)%nat by lia. rewrite Nat.mod_add by lia. done.
Qed.

(** ** Times *)
Lemma us_small n : 0 <= n < 1000 → ∃ d, 0 <= d ∧ format_microseconds n = Ok (dec (d / 10) +:+ "." +:+ dec (d mod 10) +:+ "ms") ∧ rounds d n 1000.
Proof.
  intros Hn. unfold format_microseconds. cbn [format_microseconds_from]. destruct (Z.leb_spec (1000 * 1) n); [lia|]. rewrite String.eqb_refl.
  change (1 * 1000) with 1000. destruct (float_quotient n 1000) as [p q] eqn:E. exists (nearest (10 * p) q).
  assert (Hall : forallb (λ n, let '(p, q) := float_quotient n 1000 in let d := nearest (10 * p) q in
    (0 <=? d) && (- 1000 <=? 2 * (10 * n - d * 1000)) && (2 * (10 * n - d * 1000) <=? 1000)) (Z.of_nat <$> seq 0 1000) = true) by (vm_compute; reflexivity).
  eapply forallb_forall in Hall.
  2:{ apply elem_of_list_In, elem_of_list_fmap. exists (Z.to_nat n). split; [symmetry; apply Z2Nat.id; lia|]. apply elem_of_seq. lia. }
  rewrite E in Hall. cbn zeta in Hall. apply andb_true_iff in Hall as [Hall H3]. apply andb_true_iff in Hall as [H1 H2].
  apply Z.leb_le in H1, H2, H3. split; [lia|]. split; [|unfold rounds; lia]. unfold one_decimal. cbn zeta. f_equal.
  assert (assoc : ∀ a b c, (a +:+ b) +:+ c = a +:+ b +:+ c).
  { intros a b c. induction a as [|x a IH]; [done|]. change (String x ((a +:+ b) +:+ c) = String x (a +:+ b +:+ c)). by rewrite IH. }
  rewrite !assoc. done.
Qed.
Lemma us_big u us p q : u ≠ "us" → p < 1000 * q → format_microseconds_from (u :: us) p q = Ok (dec (p / q) +:+ u).
Proof.
  intros Hu Hp. cbn [format_microseconds_from]. destruct (Z.leb_spec (1000 * q) p); [lia|]. destruct (String.eqb_spec u "us"); [done|].
  destruct (Z.ltb_spec (1000 * q) p); [lia|]. rewrite andb_false_r. done.
Qed.
Lemma us_next u us p q : 1000 * q <= p → format_microseconds_from (u :: us) p q = let '(p, q) := float_quotient p (q * 1000) in format_microseconds_from us p q.
Proof. intros Hp. cbn [format_microseconds_from]. destruct (Z.leb_spec (1000 * q) p); [done|lia]. Qed.
Lemma div_between a b d : 0 < b → d * b <= a < (d + 1) * b → a / b = d.
Proof. intros Hb H. symmetry. apply (Z.div_unique a b d (a - b * d)); lia. Qed.
Lemma us_ms n : 1000 <= n < 1000000 → format_microseconds n = Ok (dec (n / 1000) +:+ "ms").
Proof.
  intros Hn. unfold format_microseconds. rewrite us_next by lia. change (1 * 1000) with 1000.
  pose proof (float_close n 1000 ltac:(lia) ltac:(lia) ltac:(lia)) as Hc. pose proof (float_ge n 1000 (n / 1000) ltac:(lia)) as Hg. pose proof (float_pos n 1000 ltac:(lia)) as Hp.
  destruct (float_quotient n 1000) as [a b]. cbn in Hp. destruct Hc as [Hc Hb].
  pose proof (Z.div_mod n 1000 ltac:(lia)). pose proof (Z.mod_pos_bound n 1000 ltac:(lia)). set (d := n / 1000) in *.
  assert (1 <= d < 1000) by lia. specialize (Hg ltac:(lia) ltac:(lia)). assert (1000000 < b) by (change (2 ^ 52) with 4503599627370496 in Hb; nia).
  assert (a < (d + 1) * b) by nia. rewrite us_big; [|done|nia]. do 2 f_equal. rewrite (div_between a b d); [done|lia|lia].
Qed.
Lemma us_s n : 1000000 <= n < 1000000000 → format_microseconds n = Ok (dec (n / 1000000) +:+ "s").
Proof.
  intros Hn. unfold format_microseconds. rewrite us_next by lia. change (1 * 1000) with 1000.
  pose proof (float_close n 1000 ltac:(lia) ltac:(lia) ltac:(lia)) as Hc. pose proof (float_pos n 1000 ltac:(lia)) as Hp.
  pose proof (Z.div_mod n 1000000 ltac:(lia)) as Ed. pose proof (Z.mod_pos_bound n 1000000 ltac:(lia)) as Em. set (d := n / 1000000) in *.
  assert (Hd : 1 <= d < 1000) by lia.
  pose proof (float_ge n 1000 1000 ltac:(lia) ltac:(lia) ltac:(lia)) as Hg. pose proof (float_ge n 1000 (1000 * d) ltac:(lia) ltac:(lia) ltac:(lia)) as Hg2.
  destruct (float_quotient n 1000) as [a b]. cbn in Hp. destruct Hc as [Hc Hb]. change (2 ^ 52) with 4503599627370496 in *.
  assert (Hbb : 4000000000 < b) by nia. assert (Ha : a <= 1000001 * b) by nia. rewrite us_next by lia.
  pose proof (float_close a (b * 1000) ltac:(lia) ltac:(lia) ltac:(change (2 ^ 52) with 4503599627370496; nia)) as Hc2. pose proof (float_pos a (b * 1000) ltac:(lia)) as Hp2.
  pose proof (float_ge a (b * 1000) d ltac:(lia) ltac:(change (2 ^ 52) with 4503599627370496; lia) ltac:(nia)) as Hg3.
  destruct (float_quotient a (b * 1000)) as [a2 b2]. cbn in Hp2. destruct Hc2 as [Hc2 Hb2]. change (2 ^ 52) with 4503599627370496 in *.
  assert (Hb2' : 4000000000 < b2) by nia.
  assert (Hlt : a2 < (d + 1) * b2).
  { assert (H1 : 1000000 * b * a2 <= 1000 * a * b2 + 500000 * b) by nia.
    assert (H2 : 1000 * a * b2 <= (n * b + 500) * b2) by nia.
    assert (H3 : n * b * b2 <= (1000000 * (d + 1) - 1) * b * b2) by nia.
    assert (H4 : 500 * b2 + 500000 * b < b * b2) by (clear -Hbb Hb2'; nia).
    assert (1000000 * b * a2 < 1000000 * b * ((d + 1) * b2)) by (clear -H1 H2 H3 H4; nia).
    apply (Z.mul_lt_mono_pos_l (1000000 * b)); lia. }
  assert (a2 < 1000 * b2) by (clear -Hlt Hd Hp2; nia).
  rewrite us_big; [|done|lia]. do 2 f_equal. rewrite (div_between a2 b2 d); [done|lia|lia].
Qed.
Lemma us_too_big n : 1000000000 <= n → format_microseconds n = Raise ValueError.
Proof.
  intros Hn. unfold format_microseconds. rewrite us_next by lia. change (1 * 1000) with 1000. pose proof (float_pos n 1000 ltac:(lia)) as Hp.
  pose proof (float_ge n 1000 1000000 ltac:(lia) ltac:(lia) ltac:(lia)) as Hg. destruct (float_quotient n 1000) as [a b]. cbn in Hp.
  rewrite us_next by lia. pose proof (float_pos a (b * 1000) ltac:(lia)) as Hp2.
  pose proof (float_ge a (b * 1000) 1000 ltac:(lia) ltac:(lia) ltac:(lia)) as Hg2. destruct (float_quotient a (b * 1000)) as [a2 b2]. cbn in Hp2.
  rewrite us_next by lia. destruct (float_quotient _ _). done.
Qed.
