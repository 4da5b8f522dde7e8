(** UTF-8. *)

From Verif.Model Require Import Base Message Scheduler.
From Verif.Spec Require Import TextSpec.
From Verif.Proofs Require Import MessageProofs.

Lemma byte_inj z : 0 <= z < 256 → of_byte (byte_of z) = z.
Proof. intros H. rewrite of_byte_of. apply Z.mod_small. lia. Qed.
Lemma byte_back a : byte_of (of_byte a) = a.
Proof.
  unfold byte_of, of_byte. pose proof (Ascii.N_ascii_bounded a). rewrite Z.mod_small by lia. rewrite ?N2Z.id. apply Ascii.ascii_N_embedding.
Qed.

Lemma append_cons a s t : String.append (String a s) t = String a (String.append s t). Proof. reflexivity. Qed.
Lemma append_nil t : String.append EmptyString t = t. Proof. reflexivity. Qed.

Lemma utf8_2 x y s : 194 <= x <= 223 → 128 <= y <= 191 → utf8 (String (byte_of x) (String (byte_of y) s)) = utf8 s.
Proof.
  intros Hx Hy. cbn [utf8]. rewrite !byte_inj by lia. unfold utf8_cont. rewrite (proj2 (Z.leb_gt x 127)), (proj2 (Z.leb_le 194 x)), (proj2 (Z.leb_le x 223)) by lia. cbn [andb].
  rewrite (proj2 (Z.leb_le 128 y)), (proj2 (Z.leb_le y 191)) by lia. done.
Qed.
Lemma both_false (a b : bool) : (a = true → b = true → False) → a && b = false.
Proof. destruct a, b; try done. intros H. destruct H; done. Qed.
Lemma utf8_3 x y z s : 224 <= x <= 239 → 128 <= y <= 191 → 128 <= z <= 191 → (x = 224 → 160 <= y) → (x = 237 → y <= 159) →
  utf8 (String (byte_of x) (String (byte_of y) (String (byte_of z) s))) = utf8 s.
Proof.
  intros Hx Hy Hz H1 H2. cbn [utf8]. rewrite !byte_inj by lia. unfold utf8_cont. rewrite (proj2 (Z.leb_gt x 127)), (proj2 (Z.leb_le 194 x)), (proj2 (Z.leb_gt x 223)) by lia. cbn [andb].
  rewrite (proj2 (Z.leb_le 224 x)), (proj2 (Z.leb_le x 239)), (proj2 (Z.leb_le 128 y)), (proj2 (Z.leb_le y 191)), (proj2 (Z.leb_le 128 z)), (proj2 (Z.leb_le z 191)) by lia. cbn [andb].
  rewrite (both_false (x =? 224)), (both_false (x =? 237)); [done|..]; intros E%Z.eqb_eq L%Z.ltb_lt; [apply H2 in E|apply H1 in E]; lia.
Qed.
Lemma utf8_4 x y z t s : 240 <= x <= 244 → 128 <= y <= 191 → 128 <= z <= 191 → 128 <= t <= 191 → (x = 240 → 144 <= y) → (x = 244 → y <= 143) →
  utf8 (String (byte_of x) (String (byte_of y) (String (byte_of z) (String (byte_of t) s)))) = utf8 s.
Proof.
  intros Hx Hy Hz Ht H1 H2. cbn [utf8]. rewrite !byte_inj by lia. unfold utf8_cont. rewrite (proj2 (Z.leb_gt x 127)), (proj2 (Z.leb_le 194 x)), (proj2 (Z.leb_gt x 223)) by lia. cbn [andb].
  rewrite (proj2 (Z.leb_le 224 x)), (proj2 (Z.leb_gt x 239)), (proj2 (Z.leb_le 240 x)), (proj2 (Z.leb_le x 244)) by lia. cbn [andb].
  rewrite (proj2 (Z.leb_le 128 y)), (proj2 (Z.leb_le y 191)), (proj2 (Z.leb_le 128 z)), (proj2 (Z.leb_le z 191)), (proj2 (Z.leb_le 128 t)), (proj2 (Z.leb_le t 191)) by lia. cbn [andb].
  rewrite (both_false (x =? 240)), (both_false (x =? 244)); [done|..]; intros E%Z.eqb_eq L%Z.ltb_lt; [apply H2 in E|apply H1 in E]; lia.
Qed.

Lemma utf8_char c s : character c → utf8 (String.append (encoded c) s) = utf8 s.
Proof.
  intros [[H0 H1] H2]. unfold encoded.
  destruct (Z.ltb_spec c 128); [|destruct (Z.ltb_spec c 2048); [|destruct (Z.ltb_spec c 65536)]]; cbn [octets]; rewrite ?append_cons, append_nil.
  - cbn [utf8]. rewrite byte_inj by lia. destruct (Z.leb_spec c 127); [done|lia].
  - assert (2 <= c / 64 < 32 ∧ 0 <= c mod 64 < 64) by (Z.to_euclidean_division_equations; lia). apply utf8_2; lia.
  - assert (0 <= c / 4096 < 16 ∧ 0 <= c mod 64 < 64 ∧ 0 <= c / 64 mod 64 < 64 ∧ c = c / 4096 * 4096 + c / 64 mod 64 * 64 + c mod 64) as (Ha & Hb & Hc & Hd)
      by (Z.to_euclidean_division_equations; lia).
    apply utf8_3; lia.
  - assert (0 <= c / 262144 < 5 ∧ 0 <= c mod 64 < 64 ∧ 0 <= c / 64 mod 64 < 64 ∧ 0 <= c / 4096 mod 64 < 64 ∧ c = c / 262144 * 262144 + c / 4096 mod 64 * 4096 + c / 64 mod 64 * 64 + c mod 64)
      as (Ha & Hb & Hc & Hd & He) by (Z.to_euclidean_division_equations; lia).
    apply utf8_4; lia.
Qed.

Lemma text_cons c s : character c → text s → text (String.append (encoded c) s).
Proof. intros Hc (cs & Hcs & ->). exists (c :: cs). split; [by constructor|done]. Qed.

Ltac clear_bools := repeat match goal with
  | H : _ && _ = true |- _ => apply andb_true_iff in H as [? ?]
  | H : negb _ = true |- _ => apply negb_true_iff in H
  | H : _ && _ = false |- _ => apply andb_false_iff in H
  | H : (_ <=? _) = true |- _ => apply Z.leb_le in H
  | H : (_ <? _) = true |- _ => apply Z.ltb_lt in H
  | H : (_ =? _) = true |- _ => apply Z.eqb_eq in H
  | H : (_ <=? _) = false |- _ => apply Z.leb_gt in H
  | H : (_ <? _) = false |- _ => apply Z.ltb_ge in H
  | H : (_ =? _) = false |- _ => apply Z.eqb_neq in H
  | H : _ ∨ _ |- _ => destruct H
  end.

Lemma utf8_text s : utf8 s = true ↔ text s.
Proof.
  split.
  - remember (String.length s) as n eqn:En. assert (Hn : (String.length s <= n)%nat) by lia. clear En. revert s Hn. induction n as [|n IH]; intros [|a s1] Hn H.
    + exists []. split; [constructor|done].
    + cbn in Hn. lia.
    + exists []. split; [constructor|done].
    + cbn [String.length] in Hn. cbn [utf8] in H. pose proof (of_byte_bound a) as Ba. destruct (of_byte a <=? 127) eqn:E1.
      { apply Z.leb_le in E1. replace (String a s1) with (String.append (encoded (of_byte a)) s1).
        - apply text_cons; [split; lia|]. apply IH; [lia|done].
        - unfold encoded. destruct (Z.ltb_spec (of_byte a) 128); [|lia]. cbn [octets]. by rewrite append_cons, append_nil, byte_back. }
      apply Z.leb_gt in E1. destruct s1 as [|b s2]; [done|]. pose proof (of_byte_bound b) as Bb. cbn [String.length] in Hn. destruct ((194 <=? of_byte a) && (of_byte a <=? 223)) eqn:E2.
      { unfold utf8_cont in H. clear_bools. set (x := of_byte a) in *. set (y := of_byte b) in *.
        assert (Hc : (x - 192) * 64 + (y - 128) = ((x - 192) * 64 + (y - 128))) by done.
        replace (String a (String b s2)) with (String.append (encoded ((x - 192) * 64 + (y - 128))) s2).
        - apply text_cons; [split; lia|]. apply IH; [lia|done].
        - unfold encoded. destruct (Z.ltb_spec ((x - 192) * 64 + (y - 128)) 128); [lia|]. destruct (Z.ltb_spec ((x - 192) * 64 + (y - 128)) 2048); [|lia].
          replace (((x - 192) * 64 + (y - 128)) / 64) with (x - 192) by (Z.to_euclidean_division_equations; lia).
          replace (((x - 192) * 64 + (y - 128)) mod 64) with (y - 128) by (Z.to_euclidean_division_equations; lia).
          cbn [octets]. rewrite !append_cons, append_nil. replace (192 + (x - 192)) with x by lia. replace (128 + (y - 128)) with y by lia. unfold x, y. by rewrite !byte_back. }
      destruct s2 as [|c s3]; [done|]. pose proof (of_byte_bound c) as Bc. cbn [String.length] in Hn. destruct ((224 <=? of_byte a) && (of_byte a <=? 239)) eqn:E3.
      { unfold utf8_cont in H. set (x := of_byte a) in *. set (y := of_byte b) in *. set (z := of_byte c) in *.
        set (v := (x - 224) * 4096 + (y - 128) * 64 + (z - 128)).
        assert (Hr : 224 <= x <= 239 ∧ 128 <= y <= 191 ∧ 128 <= z <= 191 ∧ (x = 224 → 160 <= y) ∧ (x = 237 → y <= 159)) by (clear_bools; lia).
        assert (Hu : utf8 s3 = true) by (apply andb_true_iff in H; tauto). clear H E1 E2 E3.
        replace (String a (String b (String c s3))) with (String.append (encoded v) s3).
        - apply text_cons; [split; lia|]. apply IH; [lia|done].
        - unfold encoded. destruct (Z.ltb_spec v 128); [lia|]. destruct (Z.ltb_spec v 2048); [lia|]. destruct (Z.ltb_spec v 65536); [|lia].
          replace (v / 4096) with (x - 224) by (Z.to_euclidean_division_equations; lia).
          replace (v / 64 mod 64) with (y - 128) by (Z.to_euclidean_division_equations; lia).
          replace (v mod 64) with (z - 128) by (Z.to_euclidean_division_equations; lia).
          cbn [octets]. rewrite !append_cons, append_nil. replace (224 + (x - 224)) with x by lia. replace (128 + (y - 128)) with y by lia. replace (128 + (z - 128)) with z by lia.
          unfold x, y, z. by rewrite !byte_back. }
      destruct s3 as [|d s4]; [done|]. pose proof (of_byte_bound d) as Bd. cbn [String.length] in Hn.
      unfold utf8_cont in H. set (x := of_byte a) in *. set (y := of_byte b) in *. set (z := of_byte c) in *. set (t := of_byte d) in *.
      set (v := (x - 240) * 262144 + (y - 128) * 4096 + (z - 128) * 64 + (t - 128)).
      assert (Hr : 240 <= x <= 244 ∧ 128 <= y <= 191 ∧ 128 <= z <= 191 ∧ 128 <= t <= 191 ∧ (x = 240 → 144 <= y) ∧ (x = 244 → y <= 143)) by (clear E2 E3; clear_bools; lia).
      assert (Hu : utf8 s4 = true) by (apply andb_true_iff in H; tauto). clear H E1 E2 E3.
      replace (String a (String b (String c (String d s4)))) with (String.append (encoded v) s4).
      * apply text_cons; [split; lia|]. apply IH; [lia|done].
      * unfold encoded. destruct (Z.ltb_spec v 128); [lia|]. destruct (Z.ltb_spec v 2048); [lia|]. destruct (Z.ltb_spec v 65536); [lia|].
        replace (v / 262144) with (x - 240) by (Z.to_euclidean_division_equations; lia).
        replace (v / 4096 mod 64) with (y - 128) by (Z.to_euclidean_division_equations; lia).
        replace (v / 64 mod 64) with (z - 128) by (Z.to_euclidean_division_equations; lia).
        replace (v mod 64) with (t - 128) by (Z.to_euclidean_division_equations; lia).
        cbn [octets]. rewrite !append_cons, append_nil. replace (240 + (x - 240)) with x by lia. replace (128 + (y - 128)) with y by lia.
        replace (128 + (z - 128)) with z by lia. replace (128 + (t - 128)) with t by lia. unfold x, y, z, t. by rewrite !byte_back.
  - intros (cs & Hcs & ->). induction Hcs as [|c cs Hc _ IH]; [done|]. cbn [encoding]. rewrite utf8_char; done.
Qed.
