(** Prop_CFloat32: C86, the generated C functions encode and decode with use_float.

    Stated with real numbers (Coq.Reals, through Flocq). *)
From Coq Require Import Reals Lra Psatz Floats.SpecFloat.
From Flocq Require Import Core BinarySingleNaN.
From Verif Require Import Base PyNum Conversion Signal CSource CFloat CFloat32 FloatBits FloatReal FloatReal32 ConvReal Prop_Conv Prop_Nearest Prop_CFloat.
Open Scope R_scope.
Local Existing Instance FloatReal32.Hprec32.
Local Existing Instance FloatReal32.Hmax32.

(** ** Specification *)
(** The compiler reads the text of a small integral number as that number. *)
Definition reads_integers (near : float -> float) : Prop :=
  forall g z, finite64 g -> fval g = IZR z -> (Z.abs z <= 2 ^ 24)%Z -> finite32 (near g) /\ fval (near g) = IZR z.
(** The literals of scale and offset are finite floats [fs] and [fo]. *)
Definition literals (near : float -> float) (c : conversion) (fs fo : float) : Prop :=
  num_finite (conv_scale c) /\ num_finite (conv_offset c) /\ s_literal near (conv_scale c) = Some fs /\ s_literal near (conv_offset c) = Some fo /\ finite32 fs /\ finite32 fo.
(** A scale and an offset for which 20 bits survive *)
Definition sane32 (fs fo : float) : Prop := bpow radix2 (-100) <= Rabs (fval fs) <= bpow radix2 90 /\ Rabs (fval fo) <= 1048576 * Rabs (fval fs).

(** ** Rounding *)
Lemma rnd_fval32 f : finite32 f -> rnd32 (fval f) = fval f.
Proof.
  intros [V F]. destruct (to_bin32 f V) as [x <-]. rewrite fval_bin32. unfold rnd32. apply round_generic; [typeclasses eauto|]. apply BinarySingleNaN.generic_format_B2R.
Qed.
Lemma rnd_rnd32 x : rnd32 (rnd32 x) = rnd32 x.
Proof. unfold rnd32. apply round_generic; [typeclasses eauto|]. apply generic_format_round; typeclasses eauto. Qed.
Lemma finite_shape32 s m e : finite32 (S754_finite s m e) -> (e < 0)%Z -> (0 <= div_half_away (Z.pos m) (2 ^ (- e)) <= 2 ^ 24)%Z.
Proof.
  intros [V _] He. unfold valid_binary, SpecFloat.bounded, canonical_mantissa in V. apply andb_true_iff in V. destruct V as [V _]. apply Zeq_bool_eq in V.
  unfold SpecFloat.fexp, SpecFloat.emin in V. pose proof (digits2_pos_bound m) as [_ B]. assert (D : (Z.pos (digits2_pos m) <= 24)%Z) by lia.
  assert (F : (Z.pos m < 2 ^ 24)%Z) by (eapply Z.lt_le_trans; [exact B|]; apply Z.pow_le_mono_r; lia).
  assert (P : (2 <= 2 ^ (- e))%Z) by (change 2%Z with (2 ^ 1)%Z at 1; apply Z.pow_le_mono_r; lia).
  unfold div_half_away. split; [apply Z.div_pos; lia|]. apply Z.div_le_upper_bound; [lia|]. nia.
Qed.
Lemma s_round_real f : finite32 f -> exists z, finite32 (s_round f) /\ fval (s_round f) = IZR z /\ away (fval f) z.
Proof.
  intros F. destruct f as [s|s| |s m e]; try (destruct F; discriminate).
  - exists 0%Z. cbn [s_round]. split; [exact F|]. split; [reflexivity|]. apply (away_int 0).
  - cbn [s_round]. destruct (Z.leb_spec 0 e) as [L|L].
    + exists (signed_Z s (Z.pos m * 2 ^ e)). split; [exact F|].
      assert (V : fval (S754_finite s m e) = IZR (signed_Z s (Z.pos m * 2 ^ e))).
      { change (num_real (NFlt (S754_finite s m e)) = IZR (signed_Z s (Z.pos m * 2 ^ e))). rewrite mag_real. unfold F2R. cbn [Fnum Fexp]. rewrite <- IZR_Zpower by assumption.
        rewrite <- mult_IZR. change (Zpower radix2 e) with (2 ^ e)%Z. destruct s; unfold signed_Z; f_equal; ring. }
      split; [exact V|]. rewrite V. apply away_int.
    + pose proof (finite_shape32 s m e F L) as B. set (z := div_half_away (Z.pos m) (2 ^ (- e))) in *.
      assert (A : away (fval (S754_finite s m e)) (signed_Z s z)).
      { assert (A : away (F2R (Float radix2 (Z.pos m) e)) z) by (rewrite pos_value by assumption; apply away_div; [lia|apply Z.pow_pos_nonneg; lia]).
        unfold fval. cbn [SF2R]. destruct s; cbn [cond_Zopp signed_Z]; [|exact A]. change (Z.neg m) with (- Z.pos m)%Z. rewrite F2R_Zopp. now apply away_opp. }
      exists (signed_Z s z). destruct (Z.eqb_spec z 0) as [Z0|N].
      * split; [split; reflexivity|]. rewrite Z0 in *. split; [destruct s; reflexivity|exact A].
      * assert (AB : (Z.abs (signed_Z s z) <= 2 ^ 24)%Z) by (destruct s; unfold signed_Z; lia).
        destruct (norm_real32 (signed_Z s z) 0) as [N1 N2].
        { rewrite F2R_int, rnd_int32 by exact AB. rewrite <- abs_IZR. apply Rle_lt_trans with (IZR (2 ^ 24)); [now apply IZR_le|].
          change (IZR (2 ^ 24)) with (bpow radix2 24). unfold big32. apply bpow_lt. lia. }
        split; [exact N1|]. rewrite N2, F2R_int, rnd_int32 by exact AB. split; [reflexivity|exact A].
Qed.
Lemma py_int_trunc32 f : finite32 f -> exists z, py_int (NFlt f) = Ok z /\ z = Ztrunc (fval f).
Proof.
  intros F. destruct f as [s|s| |s m e]; try (destruct F; discriminate); cbn [py_int].
  - exists 0%Z. split; [reflexivity|]. unfold fval. cbn. now rewrite Ztrunc_IZR.
  - eexists. split; [reflexivity|].
    assert (T : mag_trunc m e = Ztrunc (F2R (Float radix2 (Z.pos m) e))).
    { unfold mag_trunc. destruct (Z.leb_spec 0 e) as [L|L].
      - unfold F2R. cbn [Fnum Fexp]. rewrite <- IZR_Zpower, <- mult_IZR by assumption. now rewrite Ztrunc_IZR.
      - rewrite pos_value by assumption. rewrite Ztrunc_floor; [rewrite Zfloor_div; [reflexivity|]; assert (0 < 2 ^ (- e))%Z by (apply Z.pow_pos_nonneg; lia); lia|].
        apply Rmult_le_pos; [apply IZR_le; lia|]. left. apply Rinv_0_lt_compat, IZR_lt. apply Z.pow_pos_nonneg; lia. }
    unfold fval. cbn [SF2R]. destruct s; cbn [cond_Zopp signed_Z]; [|exact T]. change (Z.neg m) with (- Z.pos m)%Z. rewrite F2R_Zopp, Ztrunc_opp. now f_equal.
Qed.
Lemma cast_int_real32 signed w f z : finite32 f -> cast_int signed w f = Some z <-> z = Ztrunc (fval f) /\ in_ctype signed w z.
Proof.
  intros F. unfold cast_int. destruct (py_int_trunc32 f F) as (t & -> & ->). unfold in_ctype. split.
  - destruct signed; destruct (_ && _) eqn:E; try discriminate; intros H; injection H as <-; apply andb_true_iff in E; destruct E as [E1 E2]; apply Z.leb_le in E1, E2; auto.
  - intros [-> H]. destruct signed; destruct H as [H1 H2]; apply Z.leb_le in H1, H2; rewrite H1, H2; reflexivity.
Qed.
Lemma small_bounded z : (Z.abs z <= 2 ^ 24)%Z -> Rabs (rnd32 (IZR z)) < big32.
Proof.
  intros H. apply rnd_bounded32. rewrite <- abs_IZR. apply Rle_trans with (IZR (2 ^ 24)); [now apply IZR_le|]. change (IZR (2 ^ 24)) with (bpow radix2 24). apply bpow_le. lia.
Qed.
Lemma single_exact z : (Z.abs z <= 2 ^ 24)%Z -> exists f, single_of_Z z = Some f /\ finite32 f /\ fval f = IZR z.
Proof. intros H. destruct (single_of_Z_real z (small_bounded z H)) as (f & A & B & C). exists f. rewrite rnd_int32 in C by exact H. auto. Qed.

(** ** The value of the expressions *)
Section Expr.
  Context (near : float -> float) (NEAR : reads_integers near).
  Lemma literal_int n z : num_finite n -> num_real n = IZR z -> (Z.abs z <= 2 ^ 24)%Z -> exists f, s_literal near n = Some f /\ finite32 f /\ fval f = IZR z.
  Proof.
    intros F V B. destruct n as [y|g]; cbn [s_literal num_real num_finite] in *.
    - apply eq_IZR in V. subst y. now apply single_exact.
    - destruct (NEAR g z F V B) as [N1 N2]. exists (near g). split; [|auto]. destruct N1 as [_ N1]. destruct g; try (destruct F; discriminate); destruct (near _); try discriminate; reflexivity.
  Qed.
  Context (c : conversion) (fs fo : float) (LIT : literals near c fs fo).
  Lemma offset_zero : py_eq (conv_offset c) (NInt 0) = true -> fval fo = 0.
  Proof.
    intros E. destruct LIT as (_ & FO & _ & LO & _). destruct (literal_int (conv_offset c) 0 FO (eq_real _ _ E)) as (f & L & _ & V); [lia|]. rewrite LO in L. injection L as <-. exact V.
  Qed.
  Lemma scale_one : py_eq (conv_scale c) (NInt 1) = true -> fval fs = 1.
  Proof.
    intros E. destruct LIT as (FS & _ & LS & _). destruct (literal_int (conv_scale c) 1 FS (eq_real _ _ E)) as (f & L & _ & V); [lia|]. rewrite LS in L. injection L as <-. exact V.
  Qed.
  Lemma quotient_real32 v : fval fs <> 0 -> finite32 v -> Rabs (rnd32 (fval v - fval fo)) < big32 -> Rabs (rnd32 (rnd32 (fval v - fval fo) / fval fs)) < big32 ->
    exists q, s_eval near (encode_expr c false) v = Some q /\ finite32 q /\ fval q = rnd32 (rnd32 (fval v - fval fo) / fval fs).
  Proof.
    intros NZ V B1 B2. pose proof offset_zero as OZ. pose proof scale_one as SO. destruct LIT as (_ & _ & LS & LO & S1 & O1). unfold encode_expr. rewrite andb_false_r.
    assert (O0 : py_eq (conv_offset c) (NInt 0) = true -> rnd32 (fval v - fval fo) = fval v) by (intros E; rewrite OZ, Rminus_0_r by exact E; now apply rnd_fval32).
    assert (S0 : py_eq (conv_scale c) (NInt 1) = true -> forall x, rnd32 (rnd32 x / fval fs) = rnd32 x) by (intros E x; rewrite SO by exact E; unfold Rdiv; rewrite Rinv_1, Rmult_1_r; apply rnd_rnd32).
    destruct (py_eq (conv_offset c) (NInt 0)) eqn:E0, (py_eq (conv_scale c) (NInt 1)) eqn:E1; cbn [andb negb s_eval].
    - exists v. split; [reflexivity|]. split; [exact V|]. rewrite S0, O0 by reflexivity. reflexivity.
    - rewrite LS. rewrite O0 in * by reflexivity. destruct (sdiv_real v fs V S1 NZ B2) as [D1 D2]. exists (sdiv v fs). auto.
    - rewrite LO. rewrite S0 in * by reflexivity. destruct (ssub_real v fo V O1 B1) as [D1 D2]. exists (ssub v fo). auto.
    - rewrite LO, LS. destruct (ssub_real v fo V O1 B1) as [D1 D2]. rewrite <- D2 in B2. destruct (sdiv_real (ssub v fo) fs D1 S1 NZ B2) as [T1 T2]. exists (sdiv (ssub v fo) fs). rewrite T2, D2. rewrite D2 in T2. auto.
  Qed.
  Lemma decode_real32 v : finite32 v -> Rabs (rnd32 (fval v * fval fs)) < big32 -> Rabs (rnd32 (rnd32 (fval v * fval fs) + fval fo)) < big32 ->
    exists f, s_eval near (decode_expr c) v = Some f /\ finite32 f /\ fval f = rnd32 (rnd32 (fval v * fval fs) + fval fo).
  Proof.
    intros V B1 B2. pose proof offset_zero as OZ. pose proof scale_one as SO. destruct LIT as (_ & _ & LS & LO & S1 & O1). unfold decode_expr.
    assert (O0 : py_eq (conv_offset c) (NInt 0) = true -> forall x, rnd32 (rnd32 x + fval fo) = rnd32 x) by (intros E x; rewrite OZ, Rplus_0_r by exact E; apply rnd_rnd32).
    assert (S0 : py_eq (conv_scale c) (NInt 1) = true -> rnd32 (fval v * fval fs) = fval v) by (intros E; rewrite SO, Rmult_1_r by exact E; now apply rnd_fval32).
    destruct (py_eq (conv_offset c) (NInt 0)) eqn:E0, (py_eq (conv_scale c) (NInt 1)) eqn:E1; cbn [andb negb s_eval].
    - exists v. split; [reflexivity|]. split; [exact V|]. rewrite O0, S0 by reflexivity. reflexivity.
    - rewrite LS. rewrite O0 in * by reflexivity. destruct (smul_real v fs V S1 B1) as [D1 D2]. exists (smul v fs). auto.
    - rewrite LO. rewrite S0 in * by reflexivity. destruct (sadd_real v fo V O1 B2) as [D1 D2]. exists (sadd v fo). auto.
    - rewrite LO, LS. destruct (smul_real v fs V S1 B1) as [D1 D2]. rewrite <- D2 in B2. destruct (sadd_real (smul v fs) fo D1 O1 B2) as [T1 T2]. exists (sadd (smul v fs) fo). rewrite T2, D2. rewrite D2 in T2. auto.
  Qed.
  Lemma encode_of signed w (u : bool) v q r : conv_is_float c = false -> s_eval near (encode_expr c false) v = Some q -> finite32 q -> in_ctype signed w r ->
    (if u then Rabs (fval q - IZR r) < / 2 else Ztrunc (fval q) = r) -> s_encode near c signed w u v = Some r.
  Proof.
    intros E Q FQ T H. unfold s_encode. destruct u.
    - rewrite round_expr by exact E. cbn [s_eval]. rewrite Q. destruct (s_round_real q FQ) as (z & Z1 & Z2 & Z3). apply cast_int_real32; [exact Z1|]. rewrite Z2, Ztrunc_IZR. split; [|exact T]. symmetry. exact (away_near _ _ _ Z3 H).
    - rewrite Q. apply cast_int_real32; [exact FQ|]. now split.
  Qed.
End Expr.

(** ** Errors *)
Lemma near32 (x b s : R) : Rabs x <= b * s -> eta32 <= s * eps32 -> Rabs (rnd32 x - x) <= (b + 1) * s * eps32.
Proof. intros H1 H2. pose proof (rnd_error32 x) as E. unfold eps32 in *. lra. Qed.
Lemma trip_error (r s o : R) : Rabs r <= 1048576 -> bpow radix2 (-100) <= Rabs s -> Rabs o <= 1048576 * Rabs s ->
  let p := rnd32 (r * s) in let y := rnd32 (p + o) in let d := rnd32 (y - o) in
  s <> 0 /\ Rabs (r * s) <= 1048576 * Rabs s /\ Rabs (p + o) <= 2097153 * Rabs s /\ Rabs (y - o) <= 1048578 * Rabs s /\ Rabs (d / s) <= 1048577 /\ Rabs (rnd32 (d / s) - r) < / 2.
Proof.
  intros HR HS HO p y d. assert (P : 0 < Rabs s) by (eapply Rlt_le_trans; [apply bpow_gt_0|exact HS]).
  assert (NZ : s <> 0) by (intros ->; rewrite Rabs_R0 in P; lra).
  assert (He : eta32 <= Rabs s * eps32) by (eapply Rle_trans; [apply eta_small32|]; apply Rmult_le_compat_r; [unfold eps32; lra|exact HS]).
  assert (X1 : Rabs (r * s) <= 1048576 * Rabs s) by (rewrite Rabs_mult; apply Rmult_le_compat_r; lra).
  pose proof (near32 _ _ _ X1 He) as E1. fold p in E1.
  assert (P1 : Rabs p <= 1048577 * Rabs s) by (apply Rabs_near in E1; unfold eps32 in *; lra).
  assert (X2 : Rabs (p + o) <= 2097153 * Rabs s) by (eapply Rle_trans; [apply Rabs_triang|]; lra).
  pose proof (near32 _ _ _ X2 He) as E2. fold y in E2.
  assert (E2' : Rabs (y - o - p) <= (2097153 + 1) * Rabs s * eps32) by (replace (y - o - p) with (y - (p + o)) by ring; exact E2).
  assert (X3 : Rabs (y - o) <= 1048578 * Rabs s) by (apply Rabs_near in E2'; unfold eps32 in *; lra).
  pose proof (near32 _ _ _ X3 He) as E3. fold d in E3.
  assert (D : Rabs (d - r * s) <= 251/1000 * Rabs s).
  { replace (d - r * s) with ((d - (y - o)) + ((y - o - p) + (p - r * s))) by ring. eapply Rle_trans; [apply Rabs_triang|]. pose proof (Rabs_triang (y - o - p) (p - r * s)). unfold eps32 in *. lra. }
  assert (Q : Rabs (d / s - r) <= 251/1000).
  { replace (d / s - r) with ((d - r * s) / s) by (field; exact NZ). unfold Rdiv. rewrite Rabs_mult, Rabs_inv. apply (Rmult_le_reg_r (Rabs s)); [exact P|]. rewrite Rmult_assoc, Rinv_l by lra. lra. }
  assert (X4 : Rabs (d / s) <= 1048577) by (apply Rabs_near in Q; lra).
  assert (E4 : Rabs (rnd32 (d / s) - d / s) <= (1048577 + 1) * 1 * eps32) by (apply near32; [lra|]; pose proof eta_tiny32; lra).
  split; [exact NZ|]. split; [exact X1|]. split; [exact X2|]. split; [exact X3|]. split; [exact X4|].
  replace (rnd32 (d / s) - r) with ((rnd32 (d / s) - d / s) + (d / s - r)) by ring. eapply Rle_lt_trans; [apply Rabs_triang|]. unfold eps32 in *. lra.
Qed.
Lemma trip near c fs fo r : reads_integers near -> literals near c fs fo -> sane32 fs fo -> (Z.abs r <= 2 ^ 20)%Z ->
  exists f q, s_decode near c r = Some f /\ finite32 f /\ s_eval near (encode_expr c false) f = Some q /\ finite32 q /\ Rabs (fval q - IZR r) < / 2.
Proof.
  intros NEAR LIT ([S1 S2] & SO) R. destruct (single_exact r) as (g & G1 & G2 & G3); [lia|].
  assert (HR : Rabs (IZR r) <= 1048576) by (rewrite <- abs_IZR; apply IZR_le in R; exact R).
  destruct (trip_error (IZR r) (fval fs) (fval fo) HR S1 SO) as (NZ & X1 & X2 & X3 & X4 & Q).
  assert (B : 4194304 * Rabs (fval fs) <= bpow radix2 120).
  { replace (bpow radix2 120) with (1073741824 * bpow radix2 90) by (change 1073741824 with (bpow radix2 30); rewrite <- bpow_plus; reflexivity). pose proof (Rabs_pos (fval fs)). lra. }
  pose proof (Rabs_pos (fval fs)) as P.
  destruct (decode_real32 near NEAR c fs fo LIT g G2) as (f & F1 & F2 & F3); [rewrite G3; apply rnd_bounded32; lra|rewrite G3; apply rnd_bounded32; lra|]. rewrite G3 in F3.
  destruct (quotient_real32 near NEAR c fs fo LIT f NZ F2) as (q & Q1 & Q2 & Q3); [rewrite F3; apply rnd_bounded32; lra| |].
  { rewrite F3. apply rnd_bounded32. eapply Rle_trans; [exact X4|]. apply Rle_trans with (bpow radix2 30); [change (bpow radix2 30) with 1073741824; lra|apply bpow_le; lia]. }
  exists f, q. unfold s_decode. rewrite G1. rewrite F3 in Q3. rewrite Q3. auto.
Qed.

(** ** C86 *)
(** With use_round encode inverts decode for raw values of up to 20 bits. *)
Theorem C86_round_trip near c fs fo signed w r : reads_integers near -> literals near c fs fo -> sane32 fs fo -> conv_is_float c = false -> (Z.abs r <= 2 ^ 20)%Z -> in_ctype signed w r ->
  exists f, s_decode near c r = Some f /\ finite32 f /\ s_encode near c signed w true f = Some r.
Proof.
  intros NEAR LIT SANE E R T. destruct (trip near c fs fo r NEAR LIT SANE R) as (f & q & D & F & Q & FQ & N). exists f. split; [exact D|]. split; [exact F|]. now apply (encode_of near c signed w true f q).
Qed.
(** Without it the result may be one step nearer to zero. *)
Theorem C86_truncated near c fs fo signed w r : reads_integers near -> literals near c fs fo -> sane32 fs fo -> conv_is_float c = false -> (Z.abs r <= 2 ^ 20)%Z -> in_ctype signed w r -> (0 < w)%Z ->
  exists f z, s_decode near c r = Some f /\ s_encode near c signed w false f = Some z /\ (z = r \/ z = (r - Z.sgn r)%Z).
Proof.
  intros NEAR LIT SANE E R T W. destruct (trip near c fs fo r NEAR LIT SANE R) as (f & q & D & F & Q & FQ & N). exists f, (Ztrunc (fval q)). split; [exact D|].
  pose proof (trunc_near _ _ N) as TN. split; [|exact TN]. apply (encode_of near c signed w false f q); auto.
  assert (P : (1 <= 2 ^ (w - 1))%Z) by (assert (0 < 2 ^ (w - 1))%Z by (apply Z.pow_pos_nonneg; lia); lia).
  unfold in_ctype in *. destruct signed, TN as [-> | ->]; try exact T; destruct (Z.lt_trichotomy r 0) as [L|[L|L]]; try (rewrite Z.sgn_neg by exact L); try (rewrite Z.sgn_pos by exact L); try (subst r; cbn [Z.sgn]); lia.
Qed.
(** What decode computes, for raw values that a float holds *)
Theorem C86_decode near c fs fo r : reads_integers near -> literals near c fs fo -> (Z.abs r <= 2 ^ 24)%Z -> Rabs (IZR r * fval fs) <= bpow radix2 100 -> Rabs (fval fo) <= bpow radix2 100 ->
  exists f, s_decode near c r = Some f /\ finite32 f /\ Rabs (fval f - (IZR r * fval fs + fval fo)) <= (Rabs (IZR r * fval fs) + Rabs (fval fo)) * bpow radix2 (-22) + bpow radix2 (-148).
Proof.
  intros NEAR LIT R B1 B2. destruct (single_exact r R) as (g & G1 & G2 & G3). set (x := IZR r * fval fs) in *. pose proof (rnd_error32 x) as E1. pose proof (rnd_error32 (rnd32 x + fval fo)) as E2. pose proof eta_tiny32 as ET. pose proof eta_pos32 as EP.
  assert (H1 : 1 <= bpow radix2 100) by (change 1 with (bpow radix2 0); apply bpow_le; lia).
  assert (H2 : bpow radix2 100 * 1048576 = bpow radix2 120) by (change 1048576 with (bpow radix2 20); rewrite <- bpow_plus; reflexivity).
  assert (H3 : Rabs (rnd32 x) <= 2 * bpow radix2 100) by (apply Rabs_near in E1; unfold eps32 in *; lra).
  assert (H4 : Rabs (rnd32 x + fval fo) <= bpow radix2 120) by (eapply Rle_trans; [apply Rabs_triang|]; lra).
  destruct (decode_real32 near NEAR c fs fo LIT g G2) as (f & F1 & F2 & F3); [rewrite G3; apply rnd_bounded32; fold x; lra|rewrite G3; now apply rnd_bounded32|]. rewrite G3 in F3. fold x in F3.
  exists f. unfold s_decode. rewrite G1. split; [exact F1|]. split; [exact F2|]. rewrite F3. replace (rnd32 (rnd32 x + fval fo) - (x + fval fo)) with ((rnd32 (rnd32 x + fval fo) - (rnd32 x + fval fo)) + (rnd32 x - x)) by ring.
  eapply Rle_trans; [apply Rabs_triang|]. assert (H5 : Rabs (rnd32 x + fval fo) <= Rabs x + (Rabs x * eps32 + eta32) + Rabs (fval fo)) by (eapply Rle_trans; [apply Rabs_triang|]; apply Rabs_near in E1; lra).
  assert (H6 : bpow radix2 (-148) = 4 * eta32) by (unfold eta32; change 4 with (bpow radix2 2); rewrite <- bpow_plus; reflexivity). rewrite H6. replace (bpow radix2 (-22)) with (/ 4194304) by (cbn; lra).
  pose proof (Rabs_pos x). pose proof (Rabs_pos (fval fo)). unfold eps32 in *. lra.
Qed.
(** Integral scales and offsets: nothing is lost as long as all numbers have at most 24 bits. *)
Theorem C86_exact near c s o signed w u r : reads_integers near -> num_finite (conv_scale c) -> num_finite (conv_offset c) -> num_real (conv_scale c) = IZR s -> num_real (conv_offset c) = IZR o -> s <> 0%Z ->
  (Z.abs s <= 2 ^ 24)%Z -> (Z.abs o <= 2 ^ 24)%Z -> (Z.abs r <= 2 ^ 24)%Z -> (Z.abs (r * s) <= 2 ^ 24)%Z -> (Z.abs (r * s + o) <= 2 ^ 24)%Z -> conv_is_float c = false -> in_ctype signed w r ->
  exists f, s_decode near c r = Some f /\ finite32 f /\ fval f = IZR (r * s + o) /\ s_encode near c signed w u f = Some r.
Proof.
  intros NEAR FS FO VS VO NZ BS BO BR BP BY E T. destruct (literal_int near NEAR _ s FS VS BS) as (fs & L1 & S1 & S2), (literal_int near NEAR _ o FO VO BO) as (fo & L2 & O1 & O2).
  assert (LIT : literals near c fs fo) by (repeat split; try assumption; first [apply S1|apply O1]).
  destruct (single_exact r BR) as (g & G1 & G2 & G3).
  destruct (decode_real32 near NEAR c fs fo LIT g G2) as (f & F1 & F2 & F3).
  { rewrite G3, S2, <- mult_IZR. now apply small_bounded. }
  { rewrite G3, S2, O2, <- mult_IZR, rnd_int32, <- plus_IZR by exact BP. now apply small_bounded. }
  rewrite G3, S2, O2, <- mult_IZR, (rnd_int32 (r * s)), <- plus_IZR, rnd_int32 in F3 by assumption.
  assert (D : fval f - fval fo = IZR (r * s)) by (rewrite F3, O2, plus_IZR; ring).
  assert (NR : IZR s <> 0) by (apply IZR_neq; exact NZ). assert (QR : IZR (r * s) / IZR s = IZR r) by (rewrite mult_IZR; field; exact NR).
  destruct (quotient_real32 near NEAR c fs fo LIT f) as (q & Q1 & Q2 & Q3); [rewrite S2; exact NR|exact F2|rewrite D; now apply small_bounded|rewrite D, rnd_int32, S2, QR by exact BP; now apply small_bounded|].
  rewrite D, rnd_int32, S2, QR, rnd_int32 in Q3 by assumption.
  exists f. unfold s_decode. rewrite G1. split; [exact F1|]. split; [exact F2|]. split; [exact F3|]. apply (encode_of near c signed w u f q); auto. rewrite Q3. destruct u; [rewrite Rminus_diag_eq, Rabs_R0 by reflexivity; lra|apply Ztrunc_IZR].
Qed.
(** is_in_phys_range compares with the limits that the compiler reads; a limit that is not given is not checked. *)
Definition limit (near : float -> float) (n : num) (f : float) : Prop := exists g, to_float n = Ok g /\ s_literal near (NFlt g) = Some f /\ finite32 f.
Lemma leb_real32 a b : finite32 a -> finite32 b -> SFleb a b = true <-> fval a <= fval b.
Proof.
  intros [Va Fa] [Vb Fb]. destruct (to_bin32 a Va) as [x <-], (to_bin32 b Vb) as [y <-]. rewrite is_finite_SF_B2SF in Fa, Fb. rewrite !fval_bin32.
  change (SFleb (B2SF x) (B2SF y)) with (Bleb x y). rewrite Bleb_correct by assumption. destruct (Rle_bool_spec (B2R x) (B2R y)); split; intros; try assumption; try reflexivity; try discriminate. lra.
Qed.
Theorem C86_in_phys_range near mn mx v : finite32 v -> (forall n, mn = Some n -> exists f, limit near n f) -> (forall n, mx = Some n -> exists f, limit near n f) ->
  exists b, s_is_in_phys_range near mn mx v = Some b /\
    (b = true <-> (forall n f, mn = Some n -> limit near n f -> fval f <= fval v) /\ (forall n f, mx = Some n -> limit near n f -> fval v <= fval f)).
Proof.
  intros V L H. unfold s_is_in_phys_range, s_limit.
  assert (U : forall n f f', limit near n f -> limit near n f' -> f = f') by (intros n f f' (g & A & B & _) (g' & A' & B' & _); congruence).
  assert (LOW : exists a, match mn with None => Some true | Some n => match (match to_float n with Ok g => s_literal near (NFlt g) | Err _ => None end) with Some f => Some (SFleb f v) | None => None end end = Some a /\ (a = true <-> forall n f, mn = Some n -> limit near n f -> fval f <= fval v)).
  { destruct mn as [n|]; [|exists true; split; [reflexivity|]; split; [intros _ n f E; discriminate|reflexivity]]. destruct (L n eq_refl) as (f & F). pose proof F as (g & A & B & C). rewrite A, B. exists (SFleb f v). split; [reflexivity|]. rewrite leb_real32 by assumption. split.
    - intros X n' f' E F'. injection E as <-. now rewrite (U n f' f F' F).
    - intros X. exact (X n f eq_refl F). }
  assert (HIGH : exists a, match mx with None => Some true | Some n => match (match to_float n with Ok g => s_literal near (NFlt g) | Err _ => None end) with Some f => Some (SFleb v f) | None => None end end = Some a /\ (a = true <-> forall n f, mx = Some n -> limit near n f -> fval v <= fval f)).
  { destruct mx as [n|]; [|exists true; split; [reflexivity|]; split; [intros _ n f E; discriminate|reflexivity]]. destruct (H n eq_refl) as (f & F). pose proof F as (g & A & B & C). rewrite A, B. exists (SFleb v f). split; [reflexivity|]. rewrite leb_real32 by assumption. split.
    - intros X n' f' E F'. injection E as <-. now rewrite (U n f' f F' F).
    - intros X. exact (X n f eq_refl F). }
  destruct LOW as (a & A1 & A2), HIGH as (b & B1 & B2). rewrite A1, B1. exists (a && b). split; [reflexivity|]. rewrite andb_true_iff. tauto.
Qed.
(** The float that is read for a limit of 0.1 is larger: a value above the limit of the database is accepted. *)
Definition f32_0_1 : float := S754_finite false 13421773 (-27).
Theorem C86_limit_refuted : exists mx v, finite32 v /\ s_is_in_phys_range (narrow 32) None (Some mx) v = Some true /\ num_real mx < fval v.
Proof.
  exists (NFlt f0_1), f32_0_1. split; [split; vm_compute; reflexivity|]. split; [vm_compute; reflexivity|]. change (num_real (NFlt f0_1)) with (7205759403792794 * / 72057594037927936). change (fval f32_0_1) with (13421773 * / 134217728). lra.
Qed.
(** Larger raw values are lost even without scale and offset, also those of 32 bits that double holds. *)
Definition plain : conversion := CNum (CIdent false).
Theorem C86_large_refuted near : exists r f, in_ctype false 32 r /\ s_decode near plain r = Some f /\ s_encode near plain false 32 true f = Some (r - 1)%Z.
Proof. exists 16777217%Z, (S754_finite false 8388608 1). split; [cbn; lia|]. split; reflexivity. Qed.

(** ** Float signals: the member is a float or a double, and encode() converts its result *)
Lemma narrow_real32 g : finite64 g -> Rabs (rnd32 (fval g)) < big32 -> finite32 (narrow 32 g) /\ fval (narrow 32 g) = rnd32 (fval g).
Proof.
  intros [V F] B. destruct g as [s|s| |s m e]; try discriminate.
  - split; [split; reflexivity|]. cbn [narrow fval SF2R]. symmetry. exact (rnd_fval32 (S754_zero s) (conj eq_refl eq_refl)).
  - change (narrow 32 (S754_finite s m e)) with (SpecFloat.binary_round 24 128 s m e). rewrite binary_round_equiv32. pose proof (binary_round_correct 24 128 _ _ mode_NE s m e) as C. cbv zeta in C. destruct C as [C1 C2].
    change (F2R (Float radix2 (cond_Zopp s (Z.pos m)) e)) with (fval (S754_finite s m e)) in C2. rewrite Rlt_bool_true in C2 by exact B. destruct C2 as (C2 & C3 & _).
    split; [split; assumption|]. unfold fval at 1. rewrite C2. reflexivity.
Qed.
Lemma narrow_real64 g : finite64 g -> finite64 (narrow 64 g) /\ fval (narrow 64 g) = fval g.
Proof.
  intros FG. pose proof FG as [V F]. destruct g as [s|s| |s m e]; try discriminate.
  - split; [exact FG|reflexivity].
  - change (narrow 64 (S754_finite s m e)) with (SpecFloat.binary_round 53 1024 s m e). rewrite binary_round_equiv. pose proof (binary_round_correct 53 1024 FloatReal.Hprec FloatReal.Hmax mode_NE s m e) as C. cbv zeta in C. destruct C as [C1 C2].
    change (F2R (Float radix2 (cond_Zopp s (Z.pos m)) e)) with (fval (S754_finite s m e)) in C2.
    assert (R1 : rnd (fval (S754_finite s m e)) = fval (S754_finite s m e)).
    { destruct (to_bin _ V) as [x <-]. rewrite fval_bin. unfold rnd. pose proof FloatReal.Hprec. apply round_generic; [apply valid_rnd_N|]. apply BinarySingleNaN.generic_format_B2R. }
    change (round radix2 (SpecFloat.fexp 53 1024) (round_mode mode_NE) (fval (S754_finite s m e))) with (rnd (fval (S754_finite s m e))) in C2. rewrite R1 in C2.
    rewrite Rlt_bool_true in C2 by (destruct (to_bin _ V) as [x <-]; rewrite fval_bin; apply abs_B2R_lt_emax). destruct C2 as (C2 & C3 & _).
    split; [split; assumption|]. unfold fval at 1. exact C2.
Qed.
(** A double holds the raw value of the library and a float the float nearest to it. *)
Theorem C63_float_members scale offset ch c u v : is_double scale -> is_double offset -> factory scale offset ch true = Ok c ->
  bpow radix2 (-400) <= Rabs (num_real scale) <= bpow radix2 400 -> moderate offset -> moderate (NFlt v) ->
  exists x, scaled_to_raw c (VNum (NFlt v)) = Ok x /\
    (exists g, c_encode_float c 64 u v = Some g /\ finite64 g /\ fval g = num_real x) /\
    (Rabs (num_real x) <= bpow radix2 120 -> exists g, c_encode_float c 32 u v = Some g /\ finite32 g /\ fval g = rnd32 (num_real x)).
Proof.
  intros H1 H2 H3 H4 H5 H6. destruct (C63_double_signals scale offset ch c u v H1 H2 H3 H4 H5 H6) as [(x & f & X & E & F & Q) _].
  exists x. split; [exact X|]. unfold c_encode_float. rewrite E. split.
  - exists (narrow 64 f). split; [reflexivity|]. rewrite <- Q. exact (narrow_real64 f F).
  - intros B. exists (narrow 32 f). split; [reflexivity|]. rewrite <- Q in *. apply narrow_real32; [exact F|]. now apply rnd_bounded32.
Qed.
(** [C63_double_hypotheses] of Prop_CFloat gives a case of the first hypotheses; its raw value fits a float. *)
Example C63_float_members_hypotheses : exists x, scaled_to_raw (CNum (CLin (NFlt f0_1) (NInt (-40)) true)) (VNum (NFlt f23_4)) = Ok x /\ Rabs (num_real x) <= bpow radix2 120 /\
  c_encode_float (CNum (CLin (NFlt f0_1) (NInt (-40)) true)) 32 true f23_4 = Some (S754_finite false 10387456 (-14)).
Proof.
  exists (NFlt (S754_finite false 5576722976079872 (-43))). split; [vm_compute; reflexivity|]. split; [|vm_compute; reflexivity].
  assert (P : 1024 <= bpow radix2 120) by (change 1024 with (bpow radix2 10); apply bpow_le; lia).
  change (num_real (NFlt (S754_finite false 5576722976079872 (-43)))) with (5576722976079872 * / 8796093022208). rewrite Rabs_pos_eq by lra. lra.
Qed.

(** ** Hypotheses *)
(** Rounding the double is one way to read its text. *)
Lemma narrow_reads : reads_integers (narrow 32).
Proof.
  intros g z [V F] E B. destruct g as [s|s| |s m e]; try discriminate.
  - split; [split; reflexivity|exact E].
  - change (narrow 32 (S754_finite s m e)) with (SpecFloat.binary_round 24 128 s m e). rewrite binary_round_equiv32. pose proof (binary_round_correct 24 128 _ _ mode_NE s m e) as C. cbv zeta in C. destruct C as [C1 C2].
    change (F2R (Float radix2 (cond_Zopp s (Z.pos m)) e)) with (fval (S754_finite s m e)) in C2. rewrite E in C2. rewrite Rlt_bool_true in C2 by exact (small_bounded z B). destruct C2 as (C2 & C3 & _).
    split; [split; assumption|]. unfold fval. rewrite C2. exact (rnd_int32 z B).
Qed.
Example C86_hypotheses : reads_integers (narrow 32) /\ literals (narrow 32) tenth_conv f32_0_1 (S754_finite true 10485760 (-18)) /\ sane32 f32_0_1 (S754_finite true 10485760 (-18)) /\
  conv_is_float tenth_conv = false /\ in_ctype false 16 634 /\
  match s_decode (narrow 32) tenth_conv 634 with Some f => s_encode (narrow 32) tenth_conv false 16 true f | None => None end = Some 634%Z /\
  (exists f, s_decode (narrow 32) (CNum (CLin (NInt 4) (NInt (-40)) false)) 100 = Some f /\ fval f = IZR (100 * 4 + -40)) /\
  Rabs (IZR 634 * fval f32_0_1) <= bpow radix2 100 /\
  limit (narrow 32) (NFlt f0_1) f32_0_1 /\ s_is_in_phys_range (narrow 32) (Some (NInt 1)) (Some (NInt 3)) f32_0_1 = Some false.
Proof.
  assert (V : fval f32_0_1 = 13421773 * / 134217728) by reflexivity. assert (W : fval (S754_finite true 10485760 (-18)) = - 10485760 * / 262144) by reflexivity.
  assert (P1 : bpow radix2 (-100) <= / 16) by (change (/ 16) with (bpow radix2 (-4)); apply bpow_le; lia). assert (P2 : 128 <= bpow radix2 90) by (change 128 with (bpow radix2 7); apply bpow_le; lia). assert (P3 : 128 <= bpow radix2 100) by (change 128 with (bpow radix2 7); apply bpow_le; lia).
  split; [exact narrow_reads|]. split; [|split; [|split; [reflexivity|split; [cbn; lia|split; [|split; [|split; [|split]]]]]]].
  - split; [apply finite_by; vm_compute; reflexivity|]. split; [exact I|]. split; [vm_compute; reflexivity|]. split; [vm_compute; reflexivity|]. split; split; vm_compute; reflexivity.
  - unfold sane32. rewrite V, W, (Rabs_pos_eq (13421773 * _)), Rabs_left by lra. lra.
  - vm_compute. reflexivity.
  - exists (S754_finite false 11796480 (-15)). split; [vm_compute; reflexivity|]. change (100 * 4 + -40)%Z with 360%Z. unfold fval, SF2R, F2R. cbn. lra.
  - rewrite V, Rabs_pos_eq by lra. lra.
  - exists f0_1. split; [reflexivity|]. split; [vm_compute; reflexivity|]. split; vm_compute; reflexivity.
  - vm_compute. reflexivity.
Qed.
