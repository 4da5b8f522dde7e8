(** * Logging (C100) *)

From Verif.Model Require Import Base ZMQConfig Float Formatter Logging.
From Verif.Spec Require Import LoggingSpec.
From Verif.Proofs Require Import BaseProofs FloatProofs NumberProofs.

(** ** Durations *)
Lemma floor_exact p q c : 0 <= p < 2 ^ 53 → 0 < q → 0 < c → float_int (float_of (p * c) (q * c)) = p / q.
Proof.
  intros Hp Hq Hc. assert (Hqc : 0 < q * c) by nia. pose proof (Z.div_mod p q ltac:(lia)) as E. pose proof (Z.mod_pos_bound p q Hq) as Hr. set (k := p / q) in *. set (r := p mod q) in *. clearbody k r.
  destruct (Z.eq_dec r 0) as [->|Hn].
  - assert (Hk : 0 <= k < 2 ^ 53) by nia. pose proof (float_exact k (q * c) Hk Hqc) as H. replace (p * c) with (k * (q * c)) by nia.
    destruct (float_of (k * (q * c)) (q * c)) as [a b]. destruct H as [Hb ->]. unfold float_int. cbn [fst snd]. apply Z.div_mul. lia.
  - pose proof (float_error (p * c) (q * c) ltac:(nia) Hqc) as H. destruct (float_of (p * c) (q * c)) as [a b]. destruct H as [Hb H]. unfold float_int. cbn [fst snd].
    replace (a * (q * c) - p * c * b) with ((a * q - p * b) * c) in H by ring. rewrite Z.abs_mul, (Z.abs_eq c) in H by lia.
    assert (H' : 2 ^ 53 * Z.abs (a * q - p * b) <= p * b) by (replace (2 ^ 53 * (Z.abs (a * q - p * b) * c)) with (2 ^ 53 * Z.abs (a * q - p * b) * c) in H by ring; replace (p * c * b) with (p * b * c) in H by ring; apply Z.mul_le_mono_pos_r in H; assumption).
    assert (Ha : Z.abs (a * q - p * b) < b) by nia.
    assert (Hl : k * b <= a) by nia. assert (Hu : a < (k + 1) * b) by nia.
    symmetry. apply (Z.div_unique a b k (a - k * b)); lia.
Qed.
Lemma offset_lemma e : 0 <= e < 2 ^ 53 → offset e = e / 1000.
Proof.
  intros He. unfold offset. pose proof (float_exact e 1 He ltac:(lia)) as H. rewrite Z.mul_1_r in H. destruct (float_of e 1) as [a b]. destruct H as [Hb ->]. cbn [fst snd].
  rewrite !Z.mul_mod_distr_r by lia. rewrite !(Z.mul_comm b). rewrite !floor_exact; try lia.
  - change (10 ^ 9) with 1000000000. change (10 ^ 6) with 1000000. change (10 ^ 3) with 1000. clear. 
    pose proof (Z.div_mod e 1000000000 ltac:(lia)). pose proof (Z.mod_pos_bound e 1000000000 ltac:(lia)). set (s := e / 1000000000) in *. set (x := e mod 1000000000) in *.
    assert (E : e mod 1000000 = x mod 1000000). { rewrite H. replace (1000000000 * s + x) with (x + (1000 * s) * 1000000) by ring. apply Z.mod_add. lia. }
    rewrite E. clearbody x s. pose proof (Z.div_mod x 1000000 ltac:(lia)). pose proof (Z.mod_pos_bound x 1000000 ltac:(lia)). set (y := x mod 1000000) in *. set (m := x / 1000000) in *. clearbody y m.
    pose proof (Z.div_mod y 1000 ltac:(lia)). pose proof (Z.mod_pos_bound y 1000 ltac:(lia)). set (u := y / 1000) in *. set (z := y mod 1000) in *. clearbody u z.
    apply (Z.div_unique e 1000 _ z); lia.
  - pose proof (Z.mod_pos_bound e (10 ^ 6) ltac:(lia)). lia.
  - pose proof (Z.mod_pos_bound e (10 ^ 9) ltac:(lia)). lia.
Qed.
Lemma text_lemma us : 0 <= us → says (timedelta_text us) us.
Proof.
  intros Hu. unfold timedelta_text. set (D := 86400 * 10 ^ 6). set (d := us / D). set (x := us mod D). set (s := x / 10 ^ 6). set (u := us mod 10 ^ 6).
  assert (HD : D = 86400000000) by reflexivity. change (10 ^ 6) with 1000000 in *.
  pose proof (Z.div_mod us D ltac:(lia)) as E1. pose proof (Z.mod_pos_bound us D ltac:(lia)) as B1. pose proof (Z.div_mod x 1000000 ltac:(lia)) as E2. pose proof (Z.mod_pos_bound x 1000000 ltac:(lia)) as B2.
  fold d x in E1, B1. fold s in E2.
  assert (Eu : u = x mod 1000000). { unfold u. rewrite E1, HD. replace (86400000000 * d + x) with (x + (86400 * d) * 1000000) by ring. apply Z.mod_add. lia. }
  rewrite <- Eu in E2, B2. assert (Hd : 0 <= d) by (apply Z.div_pos; lia). clearbody d x s u. clear Eu.
  pose proof (Z.div_mod s 60 ltac:(lia)) as E3. pose proof (Z.mod_pos_bound s 60 ltac:(lia)) as B3. set (m := s / 60) in *. set (ss := s mod 60) in *.
  pose proof (Z.div_mod m 60 ltac:(lia)) as E4. pose proof (Z.mod_pos_bound m 60 ltac:(lia)) as B4. set (h := m / 60) in *. set (mm := m mod 60) in *. clearbody m ss h mm.
  exists d, h, mm, ss, u. split_and!; try lia. reflexivity.
Qed.

(** ** Destinations *)
Definition key (f : bytes) : bytes := match detect_log_types f with Screen => "console" | _ => f end.
Lemma detect_screen f : detect_log_types f = Screen ↔ f = "-" ∨ f = "/dev/stdout".
Proof.
  unfold detect_log_types. destruct (String.eqb_spec f "-") as [->|H1]; [cbn; tauto|]. destruct (String.eqb_spec f "/dev/stdout") as [->|H2]; [cbn; tauto|]. cbn [orb].
  destruct (String.prefix _ f); (split; [discriminate|tauto]).
Qed.
Lemma asked_detect expand f : asked_for expand f = match detect_log_types f with Screen => Terminal | _ => InFile (expand f) end.
Proof.
  unfold asked_for. case_bool_decide as H; [apply detect_screen in H as ->; done|]. destruct (detect_log_types f) eqn:E; try done. apply detect_screen in E. done.
Qed.
(** The file that a key stands for; the last one wins. *)
Lemma configure_tcp expand level files H ns : (∃ f, f ∈ files ∧ detect_log_types f = ZMQ) → configure expand level files H ns = Raise NotImplementedError.
Proof.
  intros (f & Hin & E). revert H ns. induction files as [|g files IH]; intros H ns; [by apply elem_of_nil in Hin|]. apply elem_of_cons in Hin as [<-|Hin]; cbn [configure]; [by rewrite E|]. destruct (detect_log_types g); auto.
Qed.
Definition clear_of (files : list bytes) : Prop := ¬ ("console" ∈ files ∧ ∃ f, f ∈ files ∧ (f = "-" ∨ f = "/dev/stdout")).
Lemma configure_ok expand level files H ns : (∀ f, f ∈ files → detect_log_types f ≠ ZMQ) →
  ∃ H', configure expand level files H ns = Ok (H', ns ++ (key <$> files)) ∧
    (∀ k, H' !! k = H !! k ∧ k ∉ key <$> files ∨ ∃ f, f ∈ files ∧ key f = k ∧ H' !! k = Some (Handler level (asked_for expand f))).
Proof.
  revert H ns. induction files as [|g files IH]; intros H ns Hz; cbn [configure].
  { exists H. rewrite app_nil_r. split; [done|]. intros k. left. split; [done|]. apply not_elem_of_nil. }
  assert (Hz' : ∀ f, f ∈ files → detect_log_types f ≠ ZMQ) by (intros f Hf; apply Hz; by right). pose proof (Hz g (elem_of_list_here _ _)) as Hg.
  assert (Hgo : ∀ v, v = Handler level (asked_for expand g) → ∃ H', configure expand level files (<[key g := v]> H) (ns ++ [key g]) = Ok (H', ns ++ (key <$> g :: files)) ∧
    (∀ k, H' !! k = H !! k ∧ k ∉ key <$> g :: files ∨ ∃ f, f ∈ g :: files ∧ key f = k ∧ H' !! k = Some (Handler level (asked_for expand f)))).
  { intros v ->. destruct (IH (<[key g := Handler level (asked_for expand g)]> H) (ns ++ [key g]) Hz') as (H' & E & Hk). exists H'. split; [rewrite E, <- app_assoc; done|]. intros k.
    destruct (Hk k) as [[Hl Hn]|(f & Hf & Ef & Hl)]; [|right; exists f; split; [by right|done]].
    destruct (decide (k = key g)) as [->|Hne].
    - right. exists g. split; [left|]. split; [done|]. rewrite Hl. apply lookup_insert.
    - left. rewrite Hl, lookup_insert_ne by done. split; [done|]. rewrite fmap_cons, not_elem_of_cons. done. }
  unfold key at 1 in Hgo. pose proof (asked_detect expand g) as Ha. unfold key in Hgo at 1 2. destruct (detect_log_types g); [apply Hgo; by rewrite Ha|apply Hgo; by rewrite Ha|done].
Qed.
Lemma add_names l acc : NoDup acc → NoDup (foldl add_name acc l) ∧ ∀ x, x ∈ foldl add_name acc l ↔ x ∈ acc ∨ x ∈ l.
Proof.
  revert acc. induction l as [|a l IH]; intros acc Ha; cbn [foldl]; [split; [done|]; intros x; rewrite elem_of_nil; tauto|].
  assert (Hd : NoDup (add_name acc a) ∧ ∀ x, x ∈ add_name acc a ↔ x ∈ acc ∨ x = a).
  { unfold add_name. case_bool_decide as H; [split; [done|]; intros x; split; [auto|]; intros [?| ->]; done|]. split; [|intros x; rewrite elem_of_app, elem_of_list_singleton; done].
    apply NoDup_app. split; [done|]. split; [|apply NoDup_singleton]. intros x Hx ->%elem_of_list_singleton. done. }
  destruct Hd as [H1 H2]. destruct (IH _ H1) as [H3 H4]. split; [done|]. intros x. rewrite H4, H2, elem_of_cons. tauto.
Qed.

Lemma line_lemma d r : line_for d r (format_record d r).
Proof.
  destruct d as [|p]; [by exists ""|]. exists (":" +:+ r_module r +:+ ":" +:+ r_function r +:+ ":" +:+ r_line r). split; [|done]. cbn [format_record]. rewrite !string_app_assoc. reflexivity.
Qed.
Section delivery.
  Context (expand : bytes → bytes) (opens : bytes → bool) (files : list bytes) (level : bytes).
  Lemma setup_inv hs : setup_logger expand opens files level = Ok hs →
    (∀ f, f ∈ files → detect_log_types f ≠ ZMQ) ∧ ∃ H, dict_config opens H (key <$> files) = Ok hs ∧
      (∀ k, H !! k = None ∧ k ∉ key <$> files ∨ ∃ f, f ∈ files ∧ key f = k ∧ H !! k = Some (Handler level (asked_for expand f))).
  Proof.
    intros Hs. assert (Hz : ∀ f, f ∈ files → detect_log_types f ≠ ZMQ).
    { intros f Hf E. unfold setup_logger in Hs. rewrite configure_tcp in Hs by eauto. discriminate. }
    split; [done|]. destruct (configure_ok expand level files ∅ [] Hz) as (H & E & Hk). unfold setup_logger in Hs. rewrite E in Hs. exists H. split; [exact Hs|]. exact Hk.
  Qed.
  Lemma key_inj f g : clear_of files → f ∈ files → g ∈ files → key f = key g → f = g ∨ detect_log_types f = Screen ∧ detect_log_types g = Screen.
  Proof.
    intros Hc Hf Hg. unfold key. destruct (detect_log_types f) eqn:Ef, (detect_log_types g) eqn:Eg; auto; intros E.
    all: exfalso; apply Hc; (split; [by subst|]).
    1, 2: exists f; (split; [done|]); by apply detect_screen.
    all: exists g; (split; [done|]); by apply detect_screen.
  Qed.
  Lemma delivery_lemma hs L r : clear_of files → setup_logger expand opens files level = Ok hs → level_number level = Some L →
    let out := written hs r in
    (r_level r < Z.max 10 L → out = []) ∧
    (Z.max 10 L <= r_level r → (∀ d, d ∈ out.*1 ↔ ∃ f, f ∈ files ∧ d = asked_for expand f) ∧
      ((∀ f g, f ∈ files → g ∈ files → expand f = expand g → f = g) → NoDup out.*1)) ∧
    (∀ d text, (d, text) ∈ out → line_for d r text).
  Proof.
    intros Hc Hs HL. destruct (setup_inv hs Hs) as (Hz & H & Hd & Hk). unfold dict_config in Hd. destruct (forallb _ _) eqn:Ef; [|discriminate]. injection Hd as Hd.
    rewrite forallb_forall in Ef.
    destruct (add_names (key <$> files) [] (NoDup_nil_2)) as [Hnd Hin]. set (ks := foldl add_name [] (key <$> files)) in *. clearbody ks.
    assert (Hst : ∀ f, f ∈ files → H !! key f ≫= started opens = Some (L, asked_for expand f)).
    { intros f Hf. destruct (Hk (key f)) as [[_ Hn]|(g & Hg & Eg & Hl)]; [destruct Hn; apply elem_of_list_fmap; eauto|]. rewrite Hl. cbn [mbind option_bind].
      assert (Ed : asked_for expand g = asked_for expand f).
      { destruct (key_inj g f Hc Hg Hf Eg) as [->|[E1 E2]]; [done|]. by rewrite !asked_detect, E1, E2. }
      rewrite Ed in *. specialize (Ef (key f, Handler level (asked_for expand f))). cbn [snd] in Ef. assert (Hm : In (key f, Handler level (asked_for expand f)) (map_to_list H)) by (apply elem_of_list_In, elem_of_map_to_list, Hl).
      specialize (Ef Hm). unfold started in *. cbn [h_level h_to] in *. rewrite HL in *. destruct (asked_for expand f); [done|]. destruct (opens path); [done|discriminate]. }
    assert (Hks : ∀ k, k ∈ ks ↔ ∃ f, f ∈ files ∧ k = key f). { intros k. rewrite Hin, elem_of_list_fmap, elem_of_nil. naive_solver. }
    assert (Hhs : ∀ n d, (n, d) ∈ hs ↔ n = L ∧ ∃ f, f ∈ files ∧ d = asked_for expand f).
    { intros n d. rewrite <- Hd, elem_of_list_omap. split.
      - intros (k & Hkk & E). apply Hks in Hkk as (f & Hf & ->). rewrite (Hst f Hf) in E. injection E as <- <-. eauto.
      - intros (-> & f & Hf & ->). exists (key f). split; [apply Hks; eauto|]. apply Hst, Hf. }
    unfold written. split; [|split].
    - intros Hr. destruct (r_level r <? 10) eqn:E10; [done|]. apply Z.ltb_ge in E10. assert (Hlt : r_level r < L) by lia. clear -Hhs Hlt.
      assert (Hall : ∀ p, p ∈ hs → p.1 = L). { intros [n d] Hp. apply Hhs in Hp as [-> _]. done. } clear Hhs. induction hs as [|p l IH]; [done|]. cbn [omap list_omap]. rewrite (Hall p) by left.
      destruct (Z.leb_spec L (r_level r)); [lia|]. apply IH. intros q Hq. apply Hall. by right.
    - intros Hr. destruct (Z.ltb_spec (r_level r) 10); [lia|]. 
      assert (Eo : (omap (λ h : Z * destination, if h.1 <=? r_level r then Some (h.2, format_record h.2 r) else None) hs).*1 = hs.*2).
      { assert (Hall : ∀ p, p ∈ hs → p.1 = L). { intros [n d] Hp. apply Hhs in Hp as [-> _]. done. } clear Hhs Hd Hs. induction hs as [|p l IH]; [done|]. cbn [omap list_omap]. rewrite (Hall p) by left.
        destruct (Z.leb_spec L (r_level r)); [|lia]. rewrite !fmap_cons. cbn [fst]. f_equal. apply IH. intros q Hq. apply Hall. by right. }
      rewrite Eo. split.
      + intros d. rewrite elem_of_list_fmap. split; [intros ([n d'] & -> & Hp); apply Hhs in Hp as [_ Hp]; exact Hp|]. intros Hf. exists (L, d). split; [done|]. apply Hhs. eauto.
      + intros Hi. rewrite <- Hd. clear Hhs Hd Eo Hs hs. 
        assert (Hks' : ∀ k, k ∈ ks → ∃ f, f ∈ files ∧ k = key f) by (intros k; apply Hks). clear Hks Hin. induction Hnd as [|k ks Hk' Hnd IH]; [constructor|]. cbn [omap list_omap].
        destruct (Hks' k) as (f & Hf & ->); [left|]. rewrite (Hst f Hf). rewrite fmap_cons. cbn [snd]. apply NoDup_cons. split; [|apply IH; intros k' Hk''; apply Hks'; by right].
        intros Hx. apply elem_of_list_fmap in Hx as ([n d] & Ed & Hx). cbn [snd] in Ed. subst d. apply elem_of_list_omap in Hx as (k' & Hk'' & E'). destruct (Hks' k') as (g & Hg & ->); [by right|]. rewrite (Hst g Hg) in E'. injection E' as _ E'.
        apply Hk'. replace (key f) with (key g); [done|]. rewrite !asked_detect in E'. unfold key. specialize (Hi f g Hf Hg). destruct (detect_log_types f) eqn:E1, (detect_log_types g) eqn:E2; try discriminate; try done; injection E' as E'; by rewrite Hi.
    - intros d text. destruct (r_level r <? 10); [intros Hx; by apply elem_of_nil in Hx|]. intros ([n d'] & _ & E)%elem_of_list_omap. cbn [fst snd] in E. destruct (n <=? r_level r); [|discriminate]. injection E as <- <-. apply line_lemma.
  Qed.
End delivery.

Lemma detect_tcp x : detect_log_types ("tcp://" +:+ x) = ZMQ.
Proof. unfold detect_log_types. cbn. destruct x; reflexivity. Qed.
Lemma prefix_rest p s : String.prefix p s = true → ∃ x, s = p +:+ x.
Proof.
  revert s. induction p as [|a p IH]; intros s H; [by exists s|]. destruct s as [|b s]; [discriminate|]. cbn in H. destruct (Ascii.ascii_dec a b) as [->|]; [|discriminate]. destruct (IH s H) as [x ->]. by exists x.
Qed.
Lemma starts_lemma expand opens files level :
  ((∃ x, "tcp://" +:+ x ∈ files) → setup_logger expand opens files level = Raise NotImplementedError) ∧
  ((¬ ∃ x, "tcp://" +:+ x ∈ files) → is_Some (level_number level) → (∀ f p, f ∈ files → asked_for expand f = InFile p → opens p = true) →
   ∃ hs, setup_logger expand opens files level = Ok hs).
Proof.
  split.
  - intros [x Hx]. unfold setup_logger. rewrite configure_tcp; [done|]. eexists. split; [exact Hx|]. apply detect_tcp.
  - intros Hz [L HL] Ho. assert (Hz' : ∀ f, f ∈ files → detect_log_types f ≠ ZMQ).
    { intros f Hf E. apply Hz. unfold detect_log_types in E. destruct (_ || _); [discriminate|]. destruct (String.prefix "tcp://" f) eqn:Ep; [|discriminate]. apply prefix_rest in Ep as [x ->]. eauto. }
    destruct (configure_ok expand level files ∅ [] Hz') as (H & E & Hk). unfold setup_logger. rewrite E. unfold dict_config. destruct (forallb _ _) eqn:Ef; [eauto|]. exfalso.
    apply not_true_iff_false in Ef. apply Ef. apply forallb_forall. intros [k v] Hin. apply elem_of_list_In, elem_of_map_to_list in Hin. cbn [snd].
    destruct (Hk k) as [[Hl _]|(f & Hf & _ & Hl)]; rewrite Hin in Hl; [rewrite lookup_empty in Hl; discriminate|]. injection Hl as ->. unfold started. cbn [h_level h_to]. rewrite HL.
    destruct (asked_for expand f) as [|p] eqn:Ea; [done|]. by rewrite (Ho f p Hf Ea).
Qed.
Lemma scoped_lemma {A} message start stop (body : res A) : start <= stop < start + 2 ^ 53 →
  ∃ text, says text ((stop - start) / 1000) ∧
    scoped message start stop body = (["beginning " +:+ message; "completed " +:+ message +:+ " in " +:+ text], body).
Proof.
  intros H. exists (timedelta_text ((stop - start) / 1000)). split; [apply text_lemma, Z.div_pos; lia|]. unfold scoped. by rewrite offset_lemma by lia.
Qed.
