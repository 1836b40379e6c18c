(** Prop_Conv: properties C16 to C20 of conversions and of scaled messages.

    C17 and the parts of C20 that use it are stated with real numbers (Coq.Reals, through Flocq). *)
From Coq Require Import Reals Lra Floats.SpecFloat.
From Flocq Require Import Core.Raux Core.Zaux.
From Verif Require Import Base PyNum Conversion Signal Bitstruct Formats Message LayoutSpec CodecSpec
     DictLemmas BitsLemmas FloatBits FloatRound GenItems NodeProofs CheckSignal TreeProofs MsgProofs
     CheckComplete Construct CodecThms RoundTrip MsgThms Examples FloatReal ConvReal Prop_Codec.
Open Scope Z_scope.

(** ** C16 *)
(** A Python number (int, or float such as 2.0) equal to the integer [z]. *)
Definition equals_int (n : num) (z : Z) : Prop := py_eq n (NInt z) = true.

Lemma equals_int_spec n z : equals_int n z -> is_integer n = true /\ py_int n = Ok z.
Proof.
  unfold equals_int, py_eq. destruct n as [y|f]; cbn [py_compare is_integer py_int].
  - destruct (Z.compare_spec y z); try discriminate. subst. auto.
  - destruct f as [s|s| |s m e]; cbn [cmp_Z_float option_map]; try (destruct s; discriminate); try discriminate.
    + destruct (Z.compare_spec z 0); try discriminate. subst. auto.
    + cbn [float_is_integer]. unfold mag_trunc. destruct (0 <=? e).
      * destruct (Z.compare_spec z (signed_Z s (Z.pos m * 2 ^ e))); try discriminate. subst. auto.
      * assert (0 < 2 ^ (- e) \/ 2 ^ (- e) = 0) as [P|P] by (destruct (Z_le_gt_dec 0 (- e)); [left; apply Z.pow_pos_nonneg; lia|right; apply Z.pow_neg_r; lia]).
        -- destruct (Z.compare_spec (z * 2 ^ (- e)) (signed_Z s (Z.pos m))) as [E| |]; try discriminate. intros _.
           destruct s; unfold signed_Z in *.
           ++ assert (EM : Z.pos m = (- z) * 2 ^ (- e)) by lia. rewrite EM.
              rewrite Z.mod_mul, Z.div_mul by lia. split; [reflexivity|]. f_equal. lia.
           ++ rewrite <- E. rewrite Z.mod_mul, Z.div_mul by lia. auto.
        -- rewrite P, Z.mul_0_r. destruct (Z.compare_spec 0 (signed_Z s (Z.pos m))) as [E| |]; try discriminate.
           destruct s; cbn in E; lia.
Qed.

Lemma int_factory scale offset c s o :
  equals_int scale s -> equals_int offset o -> factory scale offset None false = Ok c ->
  (s = 1 /\ o = 0 /\ c = CNum (CIdent false)) \/ c = CNum (CLinInt s o).
Proof.
  intros HS HO H. destruct (equals_int_spec _ _ HS) as [S1 S2], (equals_int_spec _ _ HO) as [O1 O2].
  unfold factory, num_factory in H. rewrite S1, O1, S2, O2 in H.
  destruct (py_eq scale (NInt 1) && py_eq offset (NInt 0)) eqn:E.
  - left. apply andb_true_iff in E. destruct E as [E1 E2].
    destruct (equals_int_spec _ _ E1) as [_ E3], (equals_int_spec _ _ E2) as [_ E4].
    rewrite S2 in E3. rewrite O2 in E4. apply Ok_inj in E3, E4, H. auto.
  - right. cbn in H. apply Ok_inj in H. auto.
Qed.

Theorem C16_raw_round_trip scale offset c s o r decode_choices :
  equals_int scale s -> equals_int offset o -> s <> 0 -> factory scale offset None false = Ok c ->
  raw_to_scaled c (NInt r) decode_choices = Ok (VNum (NInt (r * s + o))) /\
  scaled_to_raw c (VNum (NInt (r * s + o))) = Ok (NInt r).
Proof.
  intros HS HO NZ H. destruct (int_factory _ _ _ _ _ HS HO H) as [(-> & -> & ->)| ->].
  - rewrite Z.mul_1_r, Z.add_0_r. auto.
  - split; [reflexivity|]. cbn. replace (r * s + o - o) with (r * s) by lia.
    destruct (Z.eqb_spec s 0); [contradiction|]. cbn. rewrite Z.mod_mul by assumption. cbn. now rewrite Z.div_mul.
Qed.
Theorem C16_grid_round_trip scale offset c s o v decode_choices :
  equals_int scale s -> equals_int offset o -> s <> 0 -> factory scale offset None false = Ok c ->
  (s | v - o) ->
  exists r, scaled_to_raw c (VNum (NInt v)) = Ok (NInt r) /\
            raw_to_scaled c (NInt r) decode_choices = Ok (VNum (NInt v)).
Proof.
  intros HS HO NZ H [r E]. exists r.
  destruct (C16_raw_round_trip scale offset c s o r decode_choices HS HO NZ H) as [H1 H2].
  replace (r * s + o) with v in * by lia. auto.
Qed.
(** Two raw values never share a physical value. *)
Theorem C16_injective scale offset c s o r1 r2 decode_choices v :
  equals_int scale s -> equals_int offset o -> s <> 0 -> factory scale offset None false = Ok c ->
  raw_to_scaled c (NInt r1) decode_choices = Ok v -> raw_to_scaled c (NInt r2) decode_choices = Ok v -> r1 = r2.
Proof.
  intros HS HO NZ H H1 H2.
  destruct (C16_raw_round_trip scale offset c s o r1 decode_choices HS HO NZ H) as [A _].
  destruct (C16_raw_round_trip scale offset c s o r2 decode_choices HS HO NZ H) as [B _].
  assert (r1 * s + o = r2 * s + o) by congruence. apply (Z.mul_reg_r r1 r2 s); lia.
Qed.
(** A zero scale cannot be inverted: encoding a scaled value raises ZeroDivisionError. *)
Theorem C16_zero_scale scale offset c o v :
  equals_int scale 0 -> equals_int offset o -> factory scale offset None false = Ok c ->
  scaled_to_raw c (VNum (NInt v)) = Err ZeroDivisionError.
Proof.
  intros HS HO H. destruct (int_factory _ _ _ _ _ HS HO H) as [([=] & _)| ->]. reflexivity.
Qed.
Definition f2_0 : float := S754_finite false 4503599627370496 (-51).
Example C16_hypotheses : equals_int (NFlt f2_0) 2 /\ equals_int (NInt (-7)) (-7) /\ 2 <> 0 /\
  factory (NFlt f2_0) (NInt (-7)) None false = Ok (CNum (CLinInt 2 (-7))) /\ (2 | 11 - (-7)) /\ equals_int (NInt 0) 0 /\
  factory (NInt 0) (NInt (-7)) None false = Ok (CNum (CLinInt 0 (-7))).
Proof. repeat (split; [vm_compute; congruence|]). split; [exists 9; reflexivity|]. split; vm_compute; reflexivity. Qed.

(** ** C17 *)
(** Scale and offset are ints or finite floats; the magnitude of the scale is between 2^-900 and
    2^900, that of the offset at most 2^48 scale steps; the raw value has at most 49 bits. *)
Definition sane_linear (scale offset : num) : Prop :=
  num_finite scale /\ num_finite offset /\
  (bpow radix2 (-900) <= Rabs (num_real scale) <= bpow radix2 900)%R /\
  (Rabs (num_real offset) <= bpow radix2 48 * Rabs (num_real scale))%R.

Lemma sane_nonzero scale offset z : sane_linear scale offset -> scale = NInt z -> z <> 0.
Proof.
  intros (_ & _ & [H _] & _) -> ->. cbn [num_real] in H. rewrite Rabs_R0 in H.
  assert (G := bpow_gt_0 radix2 (-900)). apply (Rlt_irrefl 0). eapply Rlt_le_trans; eassumption.
Qed.

Lemma mag_real s m e : (num_real (NFlt (S754_finite s m e)) = Defs.F2R (Defs.Float radix2 (signed_Z s (Z.pos m)) e))%R.
Proof. now destruct s. Qed.

Lemma integral_equals n : num_finite n -> is_integer n = true -> exists z, equals_int n z.
Proof.
  intros HF HI. destruct n as [z|f]; [exists z; unfold equals_int, py_eq; cbn; now rewrite Z.compare_refl|].
  destruct f as [s|s| |s m e]; try discriminate.
  - exists 0. reflexivity.
  - cbn [is_integer float_is_integer] in HI. destruct (0 <=? e) eqn:E.
    + exists (signed_Z s (Z.pos m * 2 ^ e)). unfold equals_int, py_eq. cbn [py_compare cmp_Z_float option_map]. rewrite E.
      now rewrite Z.compare_refl.
    + exists (signed_Z s (Z.pos m / 2 ^ (- e))). unfold equals_int, py_eq. cbn [py_compare cmp_Z_float option_map]. rewrite E.
      assert (EM : signed_Z s (Z.pos m / 2 ^ (- e)) * 2 ^ (- e) = signed_Z s (Z.pos m)).
      { assert (P : 0 < 2 ^ (- e)) by (apply Z.pow_pos_nonneg; lia).
        assert (D := Z.div_mod (Z.pos m) (2 ^ (- e)) ltac:(lia)). apply Z.eqb_eq in HI. rewrite HI in D.
        destruct s; unfold signed_Z; lia. }
      rewrite EM, Z.compare_refl. reflexivity.
Qed.

(** Numbers equal to an int denote it as a real. *)
Lemma equals_int_real n z : equals_int n z -> (num_real n = IZR z)%R.
Proof.
  unfold equals_int, py_eq. destruct n as [y|f]; cbn [py_compare].
  - destruct (Z.compare_spec y z); try discriminate. now subst.
  - destruct f as [s|s| |s m e]; cbn [cmp_Z_float option_map]; try (destruct s; discriminate); try discriminate.
    + destruct (Z.compare_spec z 0); try discriminate. now subst.
    + rewrite mag_real. destruct (Z.leb_spec 0 e).
      * destruct (Z.compare_spec z (signed_Z s (Z.pos m * 2 ^ e))); try discriminate. intros _. subst z.
        unfold Defs.F2R. cbn [Defs.Fnum Defs.Fexp]. rewrite <- IZR_Zpower by assumption. rewrite <- mult_IZR.
        change (Zpower radix2 e) with (2 ^ e). destruct s; unfold signed_Z; f_equal; ring.
      * destruct (Z.compare_spec (z * 2 ^ (- e)) (signed_Z s (Z.pos m))) as [E| |]; try discriminate. intros _. rewrite <- E.
        unfold Defs.F2R. cbn [Defs.Fnum Defs.Fexp]. rewrite mult_IZR. change (2 ^ (- e)) with (Zpower radix2 (- e)).
        rewrite IZR_Zpower by lia. rewrite Rmult_assoc, <- bpow_plus. replace (- e + e) with 0 by lia. apply Rmult_1_r.
Qed.

Lemma linear_cases scale offset c :
  num_finite scale -> num_finite offset -> factory scale offset None false = Ok c ->
  (exists s o, equals_int scale s /\ equals_int offset o) \/
  (c = CNum (CLin scale offset false) /\ ~ two_ints scale offset).
Proof.
  intros FS FO H. destruct (is_integer scale && is_integer offset) eqn:E.
  - left. apply andb_true_iff in E. destruct E as [E1 E2].
    destruct (integral_equals scale FS E1) as [s Hs], (integral_equals offset FO E2) as [o Ho]. eauto.
  - unfold factory, num_factory in H. rewrite E in H. cbn [andb] in H.
    destruct (py_eq scale (NInt 1) && py_eq offset (NInt 0)) eqn:E1.
    + left. apply andb_true_iff in E1. destruct E1. exists 1, 0. auto.
    + right. apply Ok_inj in H. split; [auto|]. destruct scale, offset; cbn; auto. discriminate E.
Qed.

Theorem C17_float_round_trip scale offset c r decode_choices :
  sane_linear scale offset -> factory scale offset None false = Ok c -> Z.abs r <= 2 ^ 49 ->
  exists v, raw_to_scaled c (NInt r) decode_choices = Ok (VNum v) /\
            scaled_to_raw c (VNum v) = Ok (NInt r).
Proof.
  intros SL H Hr. pose proof SL as (FS & FO & HS & HO).
  destruct (linear_cases scale offset c FS FO H) as [(s & o & Es & Eo) | [-> NI]].
  - assert (NZ : s <> 0).
    { intros ->. apply equals_int_real in Es. destruct HS as [HS _]. rewrite Es, Rabs_R0 in HS.
      assert (G := bpow_gt_0 radix2 (-900)). apply (Rlt_irrefl 0). eapply Rlt_le_trans; eassumption. }
    destruct (C16_raw_round_trip scale offset c s o r decode_choices Es Eo NZ H) as [H1 H2].
    exists (NInt (r * s + o)). auto.
  - destruct (linear_round_trip scale offset r FS FO NI HS) as (f & F1 & _ & F2 & _); [rewrite <- bpow48; exact HO|assumption|].
    exists (NFlt f). cbn [raw_to_scaled scaled_to_raw numeric_scaled_to_raw]. rewrite F1. cbn [bind]. auto.
Qed.

(** The physical value is raw * scale + offset up to rounding. *)
Theorem C17_scaled_value scale offset c r decode_choices :
  sane_linear scale offset -> factory scale offset None false = Ok c -> Z.abs r <= 2 ^ 49 ->
  exists v, raw_to_scaled c (NInt r) decode_choices = Ok (VNum v) /\
    (Rabs (num_real v - (IZR r * num_real scale + num_real offset))
     <= bpow radix2 (-51) * (Rabs (IZR r * num_real scale) + Rabs (num_real offset) + Rabs (num_real scale)))%R.
Proof.
  intros SL H Hr. pose proof SL as (FS & FO & HS & HO).
  assert (POS : (0 <= bpow radix2 (-51) * (Rabs (IZR r * num_real scale) + Rabs (num_real offset) + Rabs (num_real scale)))%R).
  { apply Rmult_le_pos; [apply bpow_ge_0|]. apply Rplus_le_le_0_compat; [apply Rplus_le_le_0_compat|]; apply Rabs_pos. }
  destruct (linear_cases scale offset c FS FO H) as [(s & o & Es & Eo) | [-> NI]].
  - assert (V : raw_to_scaled c (NInt r) decode_choices = Ok (VNum (NInt (r * s + o)))).
    { destruct (int_factory _ _ _ _ _ Es Eo H) as [(-> & -> & ->)| ->]; [|reflexivity]. now rewrite Z.mul_1_r, Z.add_0_r. }
    exists (NInt (r * s + o)). split; [assumption|]. rewrite (equals_int_real _ _ Es), (equals_int_real _ _ Eo) in *.
    cbn [num_real]. rewrite plus_IZR, mult_IZR. rewrite Rminus_diag_eq by reflexivity. rewrite Rabs_R0. assumption.
  - destruct (linear_round_trip scale offset r FS FO NI HS) as (f & F1 & _ & _ & F2); [rewrite <- bpow48; exact HO|assumption|].
    exists (NFlt f). cbn [raw_to_scaled]. rewrite F1. cbn [bind num_real]. split; [reflexivity|].
    eapply Rle_trans; [exact F2|]. right.
    replace (bpow radix2 (-51)) with (4 * eps)%R; [ring|]. unfold eps.
    change (bpow radix2 (-51)) with (/ IZR 2251799813685248)%R. lra.
Qed.

(** 0.1 *)
Definition f0_1 : float := S754_finite false 7205759403792794 (-56).
Definition f0_5 : float := S754_finite false 4503599627370496 (-53).

Example C17_hypotheses : sane_linear (NFlt f0_1) (NInt (-40)) /\
  (exists c, factory (NFlt f0_1) (NInt (-40)) None false = Ok c) /\ Z.abs (2 ^ 49) <= 2 ^ 49.
Proof.
  assert (V : (num_real (NFlt f0_1) = 7205759403792794 * / 72057594037927936)%R) by reflexivity.
  assert (L : (Rabs (num_real (NFlt f0_1)) = 7205759403792794 * / 72057594037927936)%R) by (rewrite V; apply Rabs_pos_eq; lra).
  split; [|split; [eexists; vm_compute; reflexivity|vm_compute; discriminate]].
  split; [split; vm_compute; reflexivity|]. split; [exact I|]. rewrite L. split.
  - split.
    + apply Rle_trans with (bpow radix2 (-4)); [apply bpow_le; lia|]. change (bpow radix2 (-4)) with (/ 16)%R. lra.
    + apply Rle_trans with (bpow radix2 0); [|apply bpow_le; lia]. change (bpow radix2 0) with 1%R. lra.
  - cbn [num_real]. rewrite Rabs_left by lra. change (bpow radix2 48) with 281474976710656%R. lra.
Qed.

(** Beyond 2^53 the raw value is lost. *)
Theorem C17_large_raw_refuted :
  ~ (forall scale offset c r v, sane_linear scale offset -> factory scale offset None false = Ok c ->
       raw_to_scaled c (NInt r) true = Ok (VNum v) -> scaled_to_raw c (VNum v) = Ok (NInt r)).
Proof.
  intros H.
  assert (V : (num_real (NFlt f0_5) = 4503599627370496 * / 9007199254740992)%R) by reflexivity.
  assert (L : (Rabs (num_real (NFlt f0_5)) = 4503599627370496 * / 9007199254740992)%R) by (rewrite V; apply Rabs_pos_eq; lra).
  specialize (H (NFlt f0_5) (NInt 0) (CNum (CLin (NFlt f0_5) (NInt 0) false)) (2 ^ 53 + 1)
                (NFlt (S754_finite false 4503599627370496 0))).
  assert (A : scaled_to_raw (CNum (CLin (NFlt f0_5) (NInt 0) false)) (VNum (NFlt (S754_finite false 4503599627370496 0)))
              = Ok (NInt (2 ^ 53 + 1))).
  { apply H; [|vm_compute; reflexivity|vm_compute; reflexivity].
    split; [split; vm_compute; reflexivity|]. split; [exact I|]. rewrite L. split.
    - split.
      + apply Rle_trans with (bpow radix2 (-4)); [apply bpow_le; lia|]. change (bpow radix2 (-4)) with (/ 16)%R. lra.
      + apply Rle_trans with (bpow radix2 0); [|apply bpow_le; lia]. change (bpow radix2 0) with 1%R. lra.
    - cbn [num_real]. rewrite Rabs_R0. change (bpow radix2 48) with 281474976710656%R. lra. }
  vm_compute in A. discriminate A.
Qed.

(** ** C18 *)
(** A Python dictionary (distinct keys) whose texts are distinct and whose named values carry their
    own key, as all the loaders build them. *)
Definition good_table (ch : choices_t) : Prop :=
  NoDup (map fst ch) /\ NoDup (map (fun kv => choice_str (snd kv)) ch) /\
  forall z v n, In (z, ChNamed v n) ch -> v = z.

Lemma label_number_distinct ch z e :
  NoDup (map (fun kv => choice_str (snd kv)) ch) -> In (z, e) ch -> label_number ch (choice_str e) = Some z.
Proof.
  induction ch as [|[y c] ch IH]; intros ND HI; [contradiction|].
  cbn in ND. inversion ND as [|? ? N1 N2]; subst. cbn [label_number]. destruct HI as [[= -> ->]|HI].
  - assert (label_number ch (choice_str e) = None) as ->.
    { assert (G : forall ch y, label_number ch (choice_str e) = Some y -> In (choice_str e) (map (fun kv => choice_str (snd kv)) ch)).
      { clear. induction ch as [|[y c] ch IH]; [discriminate|]. cbn. intros y'. destruct (label_number ch (choice_str e)) eqn:E.
        - right. eapply IH. reflexivity.
        - destruct (String.eqb_spec (choice_str c) (choice_str e)); [auto|discriminate]. }
      destruct (label_number ch (choice_str e)) eqn:E; [|reflexivity]. apply G in E. contradiction. }
    now rewrite String.eqb_refl.
  - now rewrite (IH N2 HI).
Qed.

Lemma named_factory scale offset ch fl c :
  factory scale offset (Some ch) fl = Ok c ->
  exists inner, num_factory scale offset fl = Ok inner /\ c = CNamed scale offset ch (inverse_choices ch) fl inner.
Proof.
  unfold factory. intros H. apply bind_ok in H. destruct H as (inner & H1 & H2). apply Ok_inj in H2. eauto.
Qed.

Theorem C18_table_round_trip scale offset ch fl c z e :
  factory scale offset (Some ch) fl = Ok c -> good_table ch -> In (z, e) ch ->
  raw_to_scaled c (NInt z) true = Ok (choice_value e) /\
  scaled_to_raw c (choice_value e) = Ok (NInt z) /\
  scaled_to_raw c (VStr (choice_str e)) = Ok (NInt z).
Proof.
  intros H (K & T & N) HI. destruct (named_factory _ _ _ _ _ H) as (inner & _ & ->).
  assert (L : choice_to_number (CNamed scale offset ch (inverse_choices ch) fl inner) (choice_str e) = Ok z).
  { cbn. unfold sget_exn. rewrite label_number_spec, (label_number_distinct ch z e T HI). reflexivity. }
  split; [|split].
  - cbn. now rewrite (in_get _ zspec _ _ _ K HI).
  - destruct e as [s|v n]; cbn [choice_value scaled_to_raw].
    + cbn [choice_str] in L. rewrite L. reflexivity.
    + now rewrite (N z v n HI).
  - cbn [scaled_to_raw]. rewrite L. reflexivity.
Qed.

(** Whatever has no entry is converted as if there were no table, and so is everything with
    decode_choices=False. *)
Theorem C18_without_entry scale offset ch fl c c0 :
  factory scale offset (Some ch) fl = Ok c -> factory scale offset None fl = Ok c0 ->
  (forall z, ~ In z (map fst ch) -> raw_to_scaled c (NInt z) true = raw_to_scaled c0 (NInt z) true) /\
  (forall raw, raw_to_scaled c raw false = raw_to_scaled c0 raw false) /\
  (forall n, scaled_to_raw c (VNum n) = scaled_to_raw c0 (VNum n)) /\
  (forall t, ~ In t (map (fun kv => choice_str (snd kv)) ch) -> scaled_to_raw c (VStr t) = Err KeyError).
Proof.
  intros H H0. destruct (named_factory _ _ _ _ _ H) as (inner & H1 & ->).
  unfold factory in H0. rewrite H1 in H0. cbn [bind] in H0. apply Ok_inj in H0. subst c0.
  split; [|split; [|split]]; try reflexivity.
  - intros z NI. cbn. destruct (zget ch z) eqn:E; [|reflexivity].
    exfalso. apply NI. apply (get_in _ zspec) in E. now apply (in_map fst) in E.
  - intros t NI. cbn. unfold sget_exn. rewrite label_number_spec.
    assert (G : forall ch, ~ In t (map (fun kv => choice_str (snd kv)) ch) -> label_number ch t = None).
    { clear. induction ch as [|[y c] ch IH]; [reflexivity|]. cbn. intros NI. rewrite IH by tauto.
      destruct (String.eqb_spec (choice_str c) t); tauto. }
    now rewrite (G ch NI).
Qed.

(** Two entries with one text: the text stands for the last of them. *)
Theorem C18_duplicate_text_refuted :
  ~ (forall ch c z e, factory (NInt 1) (NInt 0) (Some ch) false = Ok c -> NoDup (map fst ch) -> In (z, e) ch ->
       raw_to_scaled c (NInt z) true = Ok (choice_value e) /\ scaled_to_raw c (choice_value e) = Ok (NInt z)).
Proof.
  intros H. specialize (H [(0, ChStr "x"); (1, ChStr "x")]%string _ 0 (ChStr "x"%string) eq_refl).
  destruct H as [_ H]; [repeat constructor; cbn; intuition discriminate|now left|]. vm_compute in H. discriminate H.
Qed.
(** Scaled decoding of a float signal looks up the truncated value: 1.5 is shown as the text of 1. *)
Theorem C18_float_entry_refuted :
  ~ (forall ch c c0 f, factory (NInt 1) (NInt 0) (Some ch) true = Ok c -> factory (NInt 1) (NInt 0) None true = Ok c0 ->
       (forall z, py_eq (NFlt f) (NInt z) = true -> ~ In z (map fst ch)) ->
       raw_to_scaled c (NFlt f) true = raw_to_scaled c0 (NFlt f) true).
Proof.
  intros H. specialize (H [(1, ChStr "x")]%string _ _ f1_5 eq_refl eq_refl).
  assert (A : forall z, py_eq (NFlt f1_5) (NInt z) = true -> ~ In z (map fst [(1, ChStr "x"%string)])).
  { intros z E. apply equals_int_spec in E. destruct E as [E _]. vm_compute in E. discriminate E. }
  specialize (H A). vm_compute in H. discriminate H.
Qed.
Example C18_hypotheses : good_table onoff /\ In (7, ChNamed 7 "Bad"%string) onoff /\
  (exists c, factory (NInt 2) (NFlt f0_5) (Some onoff) false = Ok c) /\ (exists c, factory (NInt 2) (NFlt f0_5) None false = Ok c) /\
  ~ In 3 (map fst onoff).
Proof.
  split; [|split; [cbn; tauto|split; [eexists; vm_compute; reflexivity|split; [eexists; vm_compute; reflexivity|]]]].
  - split; [repeat constructor; cbn; intuition discriminate|]. split; [repeat constructor; cbn; intuition discriminate|].
    intros z v n H. cbn in H. intuition congruence.
  - cbn. intuition discriminate.
Qed.

(** ** C19 *)
Record params := { p_scale : num; p_offset : num; p_choices : option choices_t; p_float : bool }.
Inductive assignment :=
| SetScale (n : num)
| SetOffset (n : num)
| SetChoices (ch : option choices_t)
| SetFloat (b : bool).

Definition update (p : params) (a : assignment) : params :=
  match a with
  | SetScale n => {| p_scale := n; p_offset := p_offset p; p_choices := p_choices p; p_float := p_float p |}
  | SetOffset n => {| p_scale := p_scale p; p_offset := n; p_choices := p_choices p; p_float := p_float p |}
  | SetChoices ch => {| p_scale := p_scale p; p_offset := p_offset p; p_choices := ch; p_float := p_float p |}
  | SetFloat b => {| p_scale := p_scale p; p_offset := p_offset p; p_choices := p_choices p; p_float := b |}
  end.
Definition build (p : params) : result conversion := factory (p_scale p) (p_offset p) (p_choices p) (p_float p).
(** Assignment to the property of the signal (signal.py:186-236). *)
Definition assign (c : conversion) (a : assignment) : result conversion :=
  match a with
  | SetScale n => set_scale c n
  | SetOffset n => set_offset c n
  | SetChoices ch => set_choices c ch
  | SetFloat b => set_is_float c b
  end.

(** An int, or a float that is not an integer. *)
Definition canonical (n : num) : Prop := match n with NInt _ => True | NFlt f => float_is_integer f = false end.
Definition canonical_assignment (a : assignment) : Prop :=
  match a with SetScale n | SetOffset n => canonical n | _ => True end.

Lemma canonical_int n z : canonical n -> equals_int n z -> n = NInt z.
Proof.
  intros C E. destruct (equals_int_spec n z E) as [E1 E2]. destruct n as [y|f]; cbn in *; congruence.
Qed.
Lemma canonical_is_integer n : canonical n -> is_integer n = true -> exists z, n = NInt z.
Proof. intros C E. destruct n; [eauto|]. cbn in *. congruence. Qed.

Lemma build_attributes p c : canonical (p_scale p) -> canonical (p_offset p) -> build p = Ok c ->
  conv_scale c = p_scale p /\ conv_offset c = p_offset p /\ conv_choices c = p_choices p /\ conv_is_float c = p_float p.
Proof.
  destruct p as [s o ch fl]. cbn [p_scale p_offset p_choices p_float]. unfold build. cbn [p_scale p_offset p_choices p_float].
  intros CS CO H. destruct ch as [ch|].
  - apply named_factory in H. destruct H as (i & _ & ->). auto.
  - unfold factory, num_factory in H. destruct (py_eq s (NInt 1) && py_eq o (NInt 0)) eqn:E.
    + apply andb_true_iff in E. destruct E as [E1 E2]. apply (canonical_int _ _ CS) in E1. apply (canonical_int _ _ CO) in E2.
      apply Ok_inj in H. subst. auto.
    + destruct (is_integer s && is_integer o && negb fl) eqn:E3.
      * apply andb_true_iff in E3. destruct E3 as [E3 E4]. apply andb_true_iff in E3. destruct E3 as [E3 E5].
        destruct (canonical_is_integer s CS E3) as [z ->], (canonical_is_integer o CO E5) as [y ->].
        apply Ok_inj in H. subst. destruct fl; [discriminate|]. auto.
      * apply Ok_inj in H. subst. auto.
Qed.

Lemma assign_build p c a : canonical (p_scale p) -> canonical (p_offset p) -> build p = Ok c ->
  assign c a = build (update p a).
Proof.
  intros CS CO H. destruct (build_attributes p c CS CO H) as (A1 & A2 & A3 & A4).
  destruct a; cbn [assign]; unfold set_scale, set_offset, set_choices, set_is_float; rewrite ?A1, ?A2, ?A3, ?A4; reflexivity.
Qed.
Lemma build_total p : canonical (p_scale p) -> canonical (p_offset p) -> exists c, build p = Ok c.
Proof.
  intros CS CO. destruct p as [s o ch fl]. unfold build, factory. cbn [p_scale p_offset p_choices p_float] in *.
  assert (exists i, num_factory s o fl = Ok i) as [i ->].
  { unfold num_factory. destruct (_ && _); [eauto|]. destruct (is_integer s && is_integer o && negb fl) eqn:E3; [|eauto].
    apply andb_true_iff in E3. destruct E3 as [E3 E4]. apply andb_true_iff in E3. destruct E3 as [E3 E5].
    destruct (canonical_is_integer s CS E3) as [z ->], (canonical_is_integer o CO E5) as [y ->]. cbn. eauto. }
  destruct ch; cbn; eauto.
Qed.

Theorem C19_assignments_rebuild p c l :
  canonical (p_scale p) -> canonical (p_offset p) -> Forall canonical_assignment l -> build p = Ok c ->
  foldM assign l c = build (fold_left update l p) /\ exists c', build (fold_left update l p) = Ok c'.
Proof.
  revert p c. induction l as [|a l IH]; intros p c CS CO HF H; cbn [foldM fold_left].
  - split; [now symmetry|eauto].
  - inversion HF as [|? ? H1 H2]; subst. rewrite (assign_build p c a CS CO H).
    assert (CS' : canonical (p_scale (update p a))) by (destruct a; assumption).
    assert (CO' : canonical (p_offset (update p a))) by (destruct a; assumption).
    destruct (build_total (update p a) CS' CO') as [c' E]. rewrite E. cbn [bind]. now apply IH.
Qed.
Theorem C19_attributes p c :
  canonical (p_scale p) -> canonical (p_offset p) -> build p = Ok c ->
  conv_scale c = p_scale p /\ conv_offset c = p_offset p /\ conv_choices c = p_choices p /\ conv_is_float c = p_float p.
Proof. exact (build_attributes p c). Qed.
Definition ex_params : params := {| p_scale := NFlt f0_5; p_offset := NInt 3; p_choices := Some onoff; p_float := false |}.
Example C19_hypotheses : canonical (p_scale ex_params) /\ canonical (p_offset ex_params) /\
  Forall canonical_assignment [SetScale (NInt 2); SetFloat true; SetOffset (NFlt f1_5); SetChoices None] /\
  exists c, build ex_params = Ok c.
Proof.
  split; [reflexivity|]. split; [exact I|]. split; [repeat constructor|]. eexists; vm_compute; reflexivity.
Qed.

(** With the float 2.0 as scale the history shows: the first conversion object is the integer one,
    which forgets that the scale was a float; a later fractional offset keeps the int scale, and large
    raw values are scaled differently. *)
Theorem C19_integral_float_refuted :
  ~ (forall p c a c1 c2 raw, build p = Ok c -> assign c a = Ok c1 -> build (update p a) = Ok c2 ->
       raw_to_scaled c1 raw true = raw_to_scaled c2 raw true).
Proof.
  intros H.
  specialize (H {| p_scale := NFlt (S754_finite false 6755399441055744 (-51)); p_offset := NInt 0; p_choices := None; p_float := false |}
                _ (SetOffset (NFlt f0_5)) _ _ (NInt (2 ^ 53 + 1)) eq_refl eq_refl eq_refl).
  vm_compute in H. discriminate H.
Qed.

(** ** C20 *)
(** Raw values a signal can hold. *)
Definition holds (s : signal) (raw : num) : Prop :=
  if conv_is_float (s_conv s) then exists y, 0 <= y < 2 ^ s_length s /\ raw = NFlt (bits_to_float (s_length s) y)
  else exists z, int_fits s z /\ raw = NInt z.

(** The conversion of the signal inverts on all raw values the signal can hold. *)
Definition inverts (s : signal) (decode_choices : bool) : Prop :=
  forall raw v, holds s raw -> shown_value s decode_choices true raw v -> raw_value s true v raw.

(** [d] gives every selected signal the physical value of some raw value it can hold. *)
Definition physical (m : message) (d : list (string * value)) (decode_choices : bool) : Prop :=
  forall s, selected m d s -> exists v raw, sget d (s_name s) = Some v /\ holds s raw /\
    shown_value s decode_choices true raw v.

Theorem C20_scaled_round_trip m d decode_choices padding strict bytes :
  strict_message m -> (decode_choices = true -> plain_tables m) ->
  (forall s, selected m d s -> inverts s decode_choices) -> physical m d decode_choices ->
  encode m d true padding strict = Ok bytes ->
  exists out, decode m bytes decode_choices true false false = Ok out /\ NoDup (map fst out) /\
    forall k v, sget out k = Some v <-> sget d k = Some v /\ exists s, selected m d s /\ s_name s = k.
Proof.
  intros SM PT INV PH H. destruct (strict_message_ok m SM) as [OK BC].
  assert (KEY : forall s v raw, selected m d s -> sget d (s_name s) = Some v -> raw_value s true v raw ->
            holds s raw /\ shown_value s decode_choices true raw v).
  { intros s v raw A G R. destruct (PH s A) as (v0 & r0 & G0 & H0 & S0). rewrite G0 in G. injection G as <-.
    assert (raw = r0) by (eapply raw_value_fun; [exact R|now apply (INV s A)]). subst. auto. }
  destruct (roundtrip m d true padding strict bytes decode_choices true OK BC) as (out & H1 & H2 & H3); auto.
  - intros s v raw A G R. destruct (KEY s v raw A G R) as [K1 K2]. split.
    + intros EF. unfold holds in K1. rewrite EF in K1. exact K1.
    + exists v. auto.
  - exists out. split; [assumption|]. split; [assumption|]. intros k v. rewrite H3. split.
    + intros (s & v0 & raw & A & E & G & R & V). subst k. destruct (KEY s v0 raw A G R) as [_ K2].
      assert (v = v0) by (eapply shown_value_fun; eauto). subst. eauto.
    + intros [G (s & A & E)]. subst k. destruct (PH s A) as (v0 & r0 & G0 & H0 & S0). rewrite G0 in G. injection G as <-.
      exists s, v0, r0. repeat (split; [assumption || reflexivity|]). split; [now apply (INV s A)|assumption].
Qed.

(** With known multiplexer values and no NaN the encoding exists. *)
Theorem C20_scaled_encode_succeeds m d decode_choices (padding : bool) :
  strict_message m -> (padding = true -> 0 <= m_unused m < 256) ->
  (forall s, selected m d s -> inverts s decode_choices) -> physical m d decode_choices ->
  (forall s, selected m d s -> selector_known (m_signals m) (selectors (m_signals m) d) s) ->
  (forall s, selected m d s -> conv_is_float (s_conv s) = true -> forall v, sget d (s_name s) = Some v ->
     ~ shown_value s decode_choices true (NFlt S754_nan) v) ->
  exists bytes, encode m d true padding false = Ok bytes.
Proof.
  intros SM HP INV PH KN NN. destruct (strict_message_ok m SM) as [OK BC].
  apply encode_complete; auto. intros s A. destruct (PH s A) as (v & raw & G & HH & S).
  exists v, raw. assert (R := INV s A raw v HH S). unfold holds in HH. unfold raw_bits.
  destruct (conv_is_float (s_conv s)) eqn:EF.
  - destruct HH as (y & Hy & ->). exists y. split; [assumption|]. split; [assumption|]. apply float_bits_round; [|assumption|].
    + apply (active_kind m (selectors (m_signals m) d) s OK A). assumption.
    + intros [N1 N2]. apply (NN s A EF v G). replace S754_nan with (bits_to_float (s_length s) y); [assumption|].
      unfold bits_to_float. rewrite N1, Z.eqb_refl. now rewrite (proj2 (Z.eqb_neq _ _) N2).
  - destruct HH as (z & Hz & ->). exists z. auto.
Qed.

(** Which conversions invert: integer scale and offset, or a sane linear conversion of a signal of at
    most 49 bits, each with or without a value table; floats that are not scaled. *)
Definition invertible_scaling (s : signal) (scale offset : num) : Prop :=
  (exists a b, equals_int scale a /\ equals_int offset b /\ a <> 0) \/
  (sane_linear scale offset /\ s_length s <= 49).

Lemma int_fits_abs s z : 0 <= s_length s <= 49 -> int_fits s z -> Z.abs z <= 2 ^ 49.
Proof.
  intros Hl H. unfold int_fits in H.
  assert (2 ^ s_length s <= 2 ^ 49) by (apply Z.pow_le_mono_r; lia).
  destruct (s_signed s); [|lia].
  assert (2 ^ (s_length s - 1) <= 2 ^ 49) by (apply Z.pow_le_mono_r; lia). lia.
Qed.

Lemma scaling_inverts s scale offset c0 z :
  0 <= s_length s -> invertible_scaling s scale offset -> factory scale offset None false = Ok c0 -> int_fits s z ->
  exists v, raw_to_scaled c0 (NInt z) false = Ok (VNum v) /\ scaled_to_raw c0 (VNum v) = Ok (NInt z).
Proof.
  intros Hl [(a & b & A & B & NZ)|[SL HL]] H Hz.
  - destruct (C16_raw_round_trip scale offset c0 a b z false A B NZ H) as [H1 H2]. eauto.
  - apply (C17_float_round_trip scale offset c0 z false SL H). apply (int_fits_abs s); [lia|assumption].
Qed.

Theorem C20_scaling_inverts s scale offset table decode_choices :
  0 <= s_length s -> factory scale offset table false = Ok (s_conv s) -> invertible_scaling s scale offset ->
  (forall ch, table = Some ch -> good_table ch) -> inverts s decode_choices.
Proof.
  intros Hl H INV GT raw v HH S. assert (EF : conv_is_float (s_conv s) = false).
  { destruct table as [ch|].
    - apply named_factory in H. destruct H as (i & _ & ->). reflexivity.
    - unfold factory, num_factory in H. destruct (_ && _); [apply Ok_inj in H; now rewrite <- H|].
      destruct (is_integer scale && is_integer offset && negb false).
      + destruct (py_int scale); [|discriminate]. destruct (py_int offset); [|discriminate]. apply Ok_inj in H. now rewrite <- H.
      + apply Ok_inj in H. now rewrite <- H. }
  unfold holds in HH. rewrite EF in HH. destruct HH as (z & Hz & ->). destruct table as [ch|].
  - specialize (GT ch eq_refl). assert (N := named_factory _ _ _ _ _ H). destruct N as (i & I1 & I2).
    assert (F0 : factory scale offset None false = Ok (CNum i)) by (unfold factory; rewrite I1; reflexivity).
    destruct (scaling_inverts s scale offset (CNum i) z Hl INV F0 Hz) as (n & N1 & N2).
    assert (NUM : raw_to_scaled (s_conv s) (NInt z) false = Ok v -> raw_value s true v (NInt z)).
    { intros E. rewrite I2 in E. cbn in E, N1. destruct (nc_raw_to_scaled i (NInt z)); [|discriminate].
      cbn in E, N1. apply Ok_inj in E, N1. subst v. injection N1 as ->. cbn [raw_value]. rewrite I2. exact N2. }
    assert (EC : conv_choices (s_conv s) = Some ch) by (rewrite I2; reflexivity). unfold shown_value in S. rewrite EC in S. destruct decode_choices; [|auto].
    cbn [choices_lookup] in S. destruct (zget ch z) as [e|] eqn:E; [|auto]. subst v.
    destruct GT as (K & T & N). assert (HI := get_in _ zspec _ _ _ E).
    destruct e as [t|y t]; cbn [choice_value raw_value].
    + exists ch, z. split; [assumption|]. split; [|reflexivity]. exact (label_number_distinct ch z (ChStr t) T HI).
    + assert (y = z) by (eapply N; exact HI). subst y. exists ch, (ChNamed z t). repeat (split; [reflexivity || assumption|]).
      cbn. now rewrite Z.eqb_refl, String.eqb_refl.
  - destruct (scaling_inverts s scale offset (s_conv s) z Hl INV H Hz) as (n & N1 & N2).
    assert (EC : conv_choices (s_conv s) = None).
    { unfold factory in H. apply bind_ok in H. destruct H as (i & _ & H). apply Ok_inj in H. now rewrite <- H. }
    unfold shown_value in S. rewrite EC in S. rewrite N1 in S. apply Ok_inj in S. subst v. exact N2.
Qed.
Theorem C20_raw_float_inverts s decode_choices :
  factory (NInt 1) (NInt 0) None true = Ok (s_conv s) -> inverts s decode_choices.
Proof.
  intros H raw v HH S. apply Ok_inj in H. unfold shown_value in S. rewrite <- H in S. cbn in S. apply Ok_inj in S. subst v.
  cbn [raw_value]. rewrite <- H. reflexivity.
Qed.

(** A message with an integer scaled multiplexer, a value table, a fractional scale and a float. *)
Definition sc_sigs : list signal := [
  mkSignal "Mux" 0 4 false false (conv_of (NInt 1) (NInt 0) (Some onoff) false) None None true None None;
  sig "Speed" 15 12 true true (conv_of (NInt 2) (NInt 5) None false);
  muxed "Temp" 32 16 false true (conv_of (NFlt f0_1) (NInt (-40)) None false) [1] "Mux";
  muxed "Other" 32 8 false true plain_conv [0; 7] "Mux";
  sig "F" 48 16 false false (conv_of (NInt 1) (NInt 0) None true)]%string.
Definition sc_msg : message :=
  match mk_message 291 false "Ex" 8 255 sc_sigs true SortDefault with
  | Ok m => m
  | Err _ => mkMessage 0 false "" 0 0 [] false (Codec [] (mkFormats [] [] 0) []) (STree [])
  end.
Lemma sc_strict : strict_message sc_msg.
Proof.
  exists 291, false, "Ex"%string, 8, 255, sc_sigs. split; [vm_compute; reflexivity|].
  split; [lia|]. split; [apply names_nodup; vm_compute; reflexivity|]. split.
  - intros s H. repeat (destruct H as [<-|H]; [cbn; lia|]). contradiction.
  - intros s H. repeat (destruct H as [<-|H]; [cbn [s_conv sig muxed]; apply built_conv_of; eexists; vm_compute; reflexivity|]).
    contradiction.
Qed.
Lemma sc_in s : In s (m_signals sc_msg) -> In s sc_sigs.
Proof.
  assert (E : m_signals sc_msg = sc_sigs) by (vm_compute; reflexivity). now rewrite E.
Qed.
Global Opaque sc_msg.

(** Temp = 123 * 0.1 - 40 *)
Definition sc_temp : value :=
  match raw_to_scaled (conv_of (NFlt f0_1) (NInt (-40)) None false) (NInt 123) true with Ok v => v | Err _ => VStr "" end.
Definition sc_data : list (string * value) :=
  [("Mux", VNamed 1 "On"); ("Speed", VNum (NInt 15)); ("Temp", sc_temp); ("F", VNum (NFlt f1_5))]%string.

Lemma sc_inverts s : In s sc_sigs -> inverts s true.
Proof.
  assert (GT := proj1 C18_hypotheses). assert (SL := proj1 C17_hypotheses).
  assert (I10 : forall s, invertible_scaling s (NInt 1) (NInt 0)).
  { intros. left. exists 1, 0. repeat split; try reflexivity. discriminate. }
  intros H. destruct H as [<-|[<-|[<-|[<-|[<-|[]]]]]].
  - apply (C20_scaling_inverts _ (NInt 1) (NInt 0) (Some onoff)); [cbn; lia|vm_compute; reflexivity|apply I10|].
    intros ch [= <-]. exact GT.
  - apply (C20_scaling_inverts _ (NInt 2) (NInt 5) None); [cbn; lia|vm_compute; reflexivity| |discriminate].
    left. exists 2, 5. repeat split; try reflexivity. discriminate.
  - apply (C20_scaling_inverts _ (NFlt f0_1) (NInt (-40)) None); [cbn; lia|vm_compute; reflexivity| |discriminate].
    right. split; [exact SL|cbn; lia].
  - apply (C20_scaling_inverts _ (NInt 1) (NInt 0) None); [cbn; lia|vm_compute; reflexivity|apply I10|discriminate].
  - apply C20_raw_float_inverts. vm_compute. reflexivity.
Qed.

Example C20_hypotheses : strict_message sc_msg /\ plain_tables sc_msg /\
  (forall s, selected sc_msg sc_data s -> inverts s true) /\ physical sc_msg sc_data true /\
  (exists bytes, encode sc_msg sc_data true true true = Ok bytes) /\
  (exists s, selected sc_msg sc_data s /\ s_name s = "Temp"%string).
Proof.
  destruct (strict_message_ok _ sc_strict) as [OK BC].
  assert (E : map s_name (sel_list (mux_of (m_signals sc_msg) sc_data) (m_codec sc_msg))
              = ["Mux"; "Temp"; "Speed"; "F"]%string) by (vm_compute; reflexivity).
  split; [exact sc_strict|]. split.
  { intros s H. apply sc_in in H. destruct H as [<-|[<-|[<-|[<-|[<-|[]]]]]]; intros EF; first [vm_compute in EF; discriminate EF | vm_compute; reflexivity]. }
  split; [intros s A; apply sc_inverts, sc_in; exact (active_in _ _ _ A)|].
  split; [|split; [eexists; vm_compute; reflexivity|]].
  - intros s A. assert (HN : In (s_name s) ["Mux"; "Temp"; "Speed"; "F"]%string).
    { rewrite <- E. apply in_map. exact (proj2 (sel_d sc_msg OK BC sc_data s) A). }
    assert (HI := sc_in _ (active_in _ _ _ A)). destruct HI as [<-|[<-|[<-|[<-|[<-|[]]]]]].
    + exists (VNamed 1 "On"), (NInt 1). split; [reflexivity|]. split; [exists 1; split; [vm_compute; split; congruence|reflexivity]|]. vm_compute. reflexivity.
    + exists (VNum (NInt 15)), (NInt 5). split; [reflexivity|]. split; [exists 5; split; [vm_compute; split; congruence|reflexivity]|]. vm_compute. reflexivity.
    + exists sc_temp, (NInt 123). split; [reflexivity|]. split; [exists 123; split; [vm_compute; split; congruence|reflexivity]|]. vm_compute. reflexivity.
    + exfalso. cbn in HN. intuition discriminate.
    + exists (VNum (NFlt f1_5)), (NFlt f1_5). split; [reflexivity|]. split; [exists 15872; split; [vm_compute; split; congruence|vm_compute; reflexivity]|]. vm_compute. reflexivity.
  - assert (H : In "Temp"%string ["Mux"; "Temp"; "Speed"; "F"]%string) by (cbn; tauto). rewrite <- E in H.
    destruct (proj1 (in_map_iff _ _ _) H) as (s & <- & Hs). exists s. split; [|reflexivity].
    exact (proj1 (sel_d sc_msg OK BC sc_data s) Hs).
Qed.
