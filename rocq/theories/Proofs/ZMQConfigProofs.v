(** Addresses: round trip and shape of accepted strings. *)

From Verif.Model Require Import Base ZMQConfig.
From Coq Require Import Ascii DecimalString DecimalZ DecimalFacts.

Lemma app_cons c a b : String c a +:+ b = String c (a +:+ b).
Proof. reflexivity. Qed.

Lemma prefix_app a b : String.prefix a (a +:+ b) = true.
Proof.
  induction a as [|c a IH]; [destruct b; reflexivity|]. rewrite app_cons. cbn [String.prefix].
  destruct (Ascii.ascii_dec c c); [exact IH|done].
Qed.

Lemma length_app a b : String.length (a +:+ b) = (String.length a + String.length b)%nat.
Proof. induction a as [|c a IH]; [reflexivity|]. change (S (String.length (a +:+ b)) = S (String.length a + String.length b)). rewrite IH. reflexivity. Qed.

Lemma substring_all s n : (String.length s <= n)%nat → String.substring 0 n s = s.
Proof. revert n; induction s as [|c s IH]; intros [|n] H; cbn in *; try reflexivity; [lia|]. rewrite IH by lia. reflexivity. Qed.

Lemma substring_drop a b n : String.substring (String.length a) n (a +:+ b) = String.substring 0 n b.
Proof. induction a as [|c a IH]; [reflexivity|]. exact IH. Qed.

Lemma split_at_here sep s : split_at sep (sep +:+ s) = Some ("", s).
Proof.
  destruct (sep +:+ s) as [|c r] eqn:E; cbn [split_at]; rewrite <- E, prefix_app, length_app, substring_drop, substring_all;
    try reflexivity; lia.
Qed.

Lemma split_at_step sep c s : String.prefix sep (String c s) = false →
  split_at sep (String c s) = match split_at sep s with Some (a, b) => Some (String c a, b) | None => None end.
Proof. intros H. cbn [split_at]. rewrite H. reflexivity. Qed.

(** Every result of [split_at] re-assembles. *)
Lemma prefix_split sep s : String.prefix sep s = true → ∃ r, s = sep +:+ r.
Proof.
  revert s; induction sep as [|c sep IH]; intros s H; [exists s; reflexivity|].
  destruct s as [|d s]; [discriminate|]. cbn in H. destruct (Ascii.ascii_dec c d) as [->|]; [|discriminate].
  apply IH in H as [r ->]. exists r. reflexivity.
Qed.

Lemma split_at_app sep s a b : split_at sep s = Some (a, b) → s = a +:+ sep +:+ b.
Proof.
  revert a; induction s as [|c s IH]; intros a; cbn [split_at].
  - destruct sep; cbn; [|discriminate]. intros [= <- <-]. reflexivity.
  - destruct (String.prefix sep (String c s)) eqn:E.
    + apply prefix_split in E as [r E]. rewrite E. rewrite length_app, substring_drop, substring_all by lia.
      intros [= <- <-]. reflexivity.
    + destruct (split_at sep s) as [[a' b']|]; [|discriminate]. intros [= <- <-].
      change (String c s = String c (a' +:+ sep +:+ b')). f_equal. apply IH. reflexivity.
Qed.

(** Splitting on a colon. *)
Lemma prefix_colon c s : String.prefix ":" (String c s) = true ↔ c = ":"%char.
Proof.
  cbn [String.prefix]. destruct (Ascii.ascii_dec ":" c) as [<-|H].
  - split; [reflexivity|]. intros _. destruct s; reflexivity.
  - split; [discriminate|congruence].
Qed.

Lemma has_colon_cons c s : has_colon (String c s) = (if Ascii.ascii_dec c ":" then true else has_colon s).
Proof.
  unfold has_colon. destruct (Ascii.ascii_dec c ":") as [->|H].
  - cbn [split_at]. rewrite (proj2 (prefix_colon ":" s)) by reflexivity. reflexivity.
  - rewrite split_at_step.
    + destruct (split_at ":" s) as [[a b]|]; reflexivity.
    + destruct (String.prefix ":" (String c s)) eqn:E; [|reflexivity]. apply prefix_colon in E. congruence.
Qed.

Lemma split_colon h s : has_colon h = false → split_at ":" (h +:+ ":" +:+ s) = Some (h, s).
Proof.
  induction h as [|c h IH]; intros H.
  - apply (split_at_here ":" s).
  - rewrite has_colon_cons in H. destruct (Ascii.ascii_dec c ":") as [|Hc]; [discriminate|].
    change (String c h +:+ ":" +:+ s) with (String c (h +:+ ":" +:+ s)).
    rewrite split_at_step; [rewrite IH by exact H; reflexivity|].
    destruct (String.prefix ":" _) eqn:E; [|reflexivity]. apply prefix_colon in E. congruence.
Qed.

Lemma split_colon_host s h p : split_at ":" s = Some (h, p) → has_colon h = false.
Proof.
  revert h; induction s as [|c s IH]; intros h; [discriminate|].
  destruct (String.prefix ":" (String c s)) eqn:E.
  - apply prefix_colon in E as ->. pose proof (split_at_here ":" s) as H. cbn [append] in H.
    change (":" +:+ s) with (String ":" s) in H. rewrite H. intros [= <- <-]. reflexivity.
  - rewrite split_at_step by exact E. destruct (split_at ":" s) as [[a b]|]; [|discriminate]. intros [= <- <-].
    rewrite has_colon_cons. destruct (Ascii.ascii_dec c ":") as [->|]; [|eapply IH; reflexivity].
    rewrite (proj2 (prefix_colon ":" s)) in E by reflexivity. discriminate.
Qed.

(** The printed form of an integer consists of digits, possibly after "-". *)
Fixpoint digits (s : string) : bool :=
  match s with EmptyString => true | String c s' => is_digit c && digits s' end.

Lemma digit_facts c : is_digit c = true → is_blank c = false ∧ c ≠ ":"%char ∧ c ≠ "_"%char ∧ c ≠ "+"%char ∧ c ≠ "-"%char.
Proof.
  unfold is_digit, is_blank. intros H. pose proof H as H0. apply andb_true_iff in H as [H1 H2].
  apply N.leb_le in H1, H2. repeat split.
  - apply orb_false_iff. split; [apply orb_false_iff; split|].
    + apply N.eqb_neq. lia.
    + apply andb_false_iff. right. apply N.leb_gt. lia.
    + apply andb_false_iff. right. apply N.leb_gt. lia.
  - intros ->. discriminate H0.
  - intros ->. discriminate H0.
  - intros ->. discriminate H0.
  - intros ->. discriminate H0.
Qed.

Lemma string_of_uint_digits u : digits (NilEmpty.string_of_uint u) = true.
Proof. induction u; cbn; auto. Qed.

Lemma nilzero_digits u : digits (NilZero.string_of_uint u) = true ∧ NilZero.string_of_uint u ≠ "".
Proof. destruct u; cbn; try (split; [|discriminate]); try reflexivity; apply string_of_uint_digits. Qed.

Lemma strip_left_digits s : digits s = true → strip_left s = s.
Proof. destruct s as [|c s]; [reflexivity|]. cbn. intros H. apply andb_true_iff in H as [H _]. apply digit_facts in H as (-> & _). reflexivity. Qed.
Lemma strip_right_digits s : digits s = true → strip_right s = s.
Proof.
  induction s as [|c s IH]; [reflexivity|]. cbn. intros H. apply andb_true_iff in H as [Hc H].
  rewrite IH by exact H. apply digit_facts in Hc as (-> & _). destruct s; reflexivity.
Qed.
Lemma no_underscores_digits b s : digits s = true → no_underscores b s = Some s.
Proof.
  revert b; induction s as [|c s IH]; intros b; [reflexivity|]. cbn. intros H. apply andb_true_iff in H as [Hc H].
  apply digit_facts in Hc as (_ & _ & Hu & _). destruct (Ascii.eqb_spec c "_") as [->|_]; [done|].
  rewrite IH by exact H. reflexivity.
Qed.
Lemma has_colon_digits s : digits s = true → has_colon s = false.
Proof.
  induction s as [|c s IH]; [reflexivity|]. cbn [digits]. intros H. apply andb_true_iff in H as [Hc H].
  rewrite has_colon_cons. apply digit_facts in Hc as (_ & Hc & _). destruct (Ascii.ascii_dec c ":"); [done|]. apply IH. exact H.
Qed.

Lemma print_int_parse z : NilZero.int_of_string (print_int z) = Some (Z.to_int z).
Proof. apply NilZero.isi; destruct z; cbn; try discriminate; intros E; injection E as E; revert E; apply DecimalPos.Unsigned.to_uint_nonnil. Qed.

Lemma print_int_shape z : ∃ u, (print_int z = NilZero.string_of_uint u ∨ print_int z = "-" +:+ NilZero.string_of_uint u).
Proof. unfold print_int. destruct (Z.to_int z) as [u|u]; exists u; cbn; auto. Qed.

Lemma py_int_print z : py_int (print_int z) = Some z ∧ has_colon (print_int z) = false.
Proof.
  pose proof (print_int_parse z) as Hp. destruct (print_int_shape z) as [u [E|E]]; rewrite E in *; clear E;
    destruct (nilzero_digits u) as [Hd Hne]; set (t := NilZero.string_of_uint u) in *; clearbody t.
  - split; [|apply has_colon_digits; exact Hd]. unfold py_int.
    rewrite strip_left_digits, strip_right_digits by exact Hd.
    assert (Hb : match t with String "+" (String "-" _) => None | String "+" s' => Some s' | _ => Some t end = Some t).
    { destruct t as [|c t']; [reflexivity|]. cbn in Hd. apply andb_true_iff in Hd as [Hc _].
      apply digit_facts in Hc as (_ & _ & _ & Hc & _).
      destruct c as [[] [] [] [] [] [] [] []]; try reflexivity. done. }
    rewrite Hb, no_underscores_digits, Hp by exact Hd. cbn. rewrite of_to. reflexivity.
  - split.
    2:{ change ("-" +:+ t) with (String "-" t). rewrite has_colon_cons. cbn. apply has_colon_digits. exact Hd. }
    unfold py_int. change ("-" +:+ t) with (String "-" t) in *.
    assert (Hs : strip_right (strip_left (String "-" t)) = String "-" t).
    { cbn [strip_left]. change (is_blank "-") with false. cbn iota. cbn [strip_right].
      rewrite strip_right_digits by exact Hd. change (is_blank "-") with false. destruct t; reflexivity. }
    rewrite Hs. cbn [no_underscores]. change (Ascii.eqb "-" "_") with false. change (is_digit "-") with false. cbn iota.
    rewrite no_underscores_digits by exact Hd. cbn [fmap option_fmap option_map].
    rewrite Hp. cbn. rewrite of_to. reflexivity.
Qed.

Lemma config_valid t h p c : make_config t h p = Ok c ↔ c = ZMQConfig t h p ∧ (t = Tcp ↔ is_Some p).
Proof.
  unfold make_config. destruct p as [p|], t; split; try (intros [= <-]); try (intros [-> H]); try reflexivity;
    try (split; [reflexivity|]; split; eauto; congruence).
  all: try (split; [reflexivity|split; [congruence|intros [? ?]; congruence]]).
  all: exfalso; try (assert (Hx : is_Some (Some p)) by eauto; apply H in Hx; discriminate).
  destruct (proj1 H eq_refl); discriminate.
Qed.

Lemma split_scheme t r : (t = Inproc ∨ t = Ipc ∨ t = Tcp) →
  split_at "://" (zmq_value t +:+ "://" +:+ r) = Some (zmq_value t, r).
Proof.
  assert (H : split_at "://" ("://" +:+ r) = Some ("", r)) by apply split_at_here.
  revert H; generalize ("://" +:+ r); intros x H.
  destruct t; intros _; cbn [zmq_value]; repeat rewrite app_cons; change ("" +:+ x) with x;
  repeat (rewrite split_at_step by reflexivity); rewrite H; reflexivity.
Qed.

Lemma address_roundtrip c :
  (zc_type c = Tcp ↔ is_Some (zc_port c)) → (zc_type c = Tcp → has_colon (zc_host c) = false) →
  from_string (to_address c) = Ok c.
Proof.
  destruct c as [t h p]; cbn. intros Hv Hh. unfold from_string, to_address; cbn [zc_type zc_host zc_port].
  destruct t.
  - rewrite (split_scheme Inproc) by auto. cbn. destruct p; [|reflexivity].
    exfalso. assert (Hx : is_Some (Some z)) by eauto. apply Hv in Hx. discriminate.
  - rewrite (split_scheme Ipc) by auto. cbn. destruct p; [|reflexivity].
    exfalso. assert (Hx : is_Some (Some z)) by eauto. apply Hv in Hx. discriminate.
  - destruct p as [p|]; [|destruct (proj1 Hv eq_refl); discriminate].
    change ("tcp://" +:+ h +:+ ":" +:+ print_int p) with (zmq_value Tcp +:+ "://" +:+ (h +:+ ":" +:+ print_int p)).
    rewrite (split_scheme Tcp) by auto. cbn [zmq_value String.eqb Ascii.eqb Bool.eqb].
    rewrite split_colon by auto. destruct (py_int_print p) as [Hp Hc]. rewrite Hc, Hp.
    apply config_valid. split; [reflexivity|exact Hv].
Qed.

Lemma address_accepts s c : from_string s = Ok c →
  (zc_type c = Tcp ↔ is_Some (zc_port c)) ∧
  match zc_port c with
  | None => s = zmq_value (zc_type c) +:+ "://" +:+ zc_host c
  | Some p => ∃ text, s = "tcp://" +:+ zc_host c +:+ ":" +:+ text ∧ has_colon (zc_host c) = false ∧
                      has_colon text = false ∧ py_int text = Some p
  end.
Proof.
  unfold from_string. destruct (split_at "://" s) as [[ty rest]|] eqn:E; [|discriminate].
  apply split_at_app in E as ->.
  destruct (String.eqb_spec ty "inproc") as [->|_]; [|destruct (String.eqb_spec ty "ipc") as [->|_];
    [|destruct (String.eqb_spec ty "tcp") as [->|_]; [|discriminate]]].
  - intros H. apply config_valid in H as [-> H]. cbn. split; [exact H|reflexivity].
  - intros H. apply config_valid in H as [-> H]. cbn. split; [exact H|reflexivity].
  - destruct (split_at ":" rest) as [[h p]|] eqn:E; [|discriminate].
    destruct (has_colon p) eqn:Ec; [discriminate|]. destruct (py_int p) as [z|] eqn:Ep; [|discriminate].
    intros H. apply config_valid in H as [-> H]. cbn. split; [exact H|].
    exists p. split; [|split; [eapply split_colon_host; eauto|auto]].
    apply split_at_app in E as ->. reflexivity.
Qed.

Lemma address_errors s e : from_string s = Raise e → e = ValueError.
Proof.
  unfold from_string, make_config. destruct (split_at "://" s) as [[ty rest]|]; [|congruence].
  repeat (destruct (String.eqb _ _); [congruence|]).
  destruct (String.eqb ty "tcp"); [|congruence].
  destruct (split_at ":" rest) as [[h p]|]; [|congruence].
  destruct (has_colon p); [congruence|]. destruct (py_int p); congruence.
Qed.
