(** Prop_CFloat: C63, the generated C functions encode, decode and is_in_phys_range; C64, init.

    Stated with real numbers (Coq.Reals, through Flocq). *)
From Coq Require Import Reals Lra Psatz Floats.SpecFloat.
From Flocq Require Import Core BinarySingleNaN.
From Verif Require Import Base PyNum Conversion Signal CSource CFloat NodeProofs DictLemmas FloatBits FloatReal ConvReal Prop_Conv Prop_Nearest.
Open Scope R_scope.
Local Existing Instance FloatReal.Hprec.
Local Existing Instance FloatReal.Hmax.

(** ** Rounding of math.h *)
(** The nearest integer, the one away from zero of two. *)
Definition away (x : R) (r : Z) : Prop := Rabs (x - IZR r) <= / 2 /\ (Rabs (x - IZR r) = / 2 -> Rabs x < Rabs (IZR r)).
Lemma away_opp x r : away x r -> away (- x) (- r).
Proof.
  unfold away. rewrite opp_IZR. replace (- x - - IZR r) with (- (x - IZR r)) by ring. rewrite !Rabs_Ropp. auto.
Qed.
Lemma away_div m d : (0 <= m)%Z -> (0 < d)%Z -> away (IZR m / IZR d) (div_half_away m d).
Proof.
  intros Hm Hd. unfold div_half_away. pose proof (Z.div_mod (2 * m + d) (2 * d) ltac:(lia)) as E. pose proof (Z.mod_pos_bound (2 * m + d) (2 * d) ltac:(lia)) as B.
  set (q := ((2 * m + d) / (2 * d))%Z) in *. set (r := ((2 * m + d) mod (2 * d))%Z) in *.
  assert (Q : (0 <= q)%Z) by (apply Z.div_pos; lia).
  assert (D : 0 < IZR d) by (apply IZR_lt; lia).
  assert (V : IZR m / IZR d = IZR q + (IZR r / IZR d - 1) / 2).
  { assert (T : IZR (2 * m + d) = IZR (2 * d * q + r)) by (now rewrite <- E). rewrite !plus_IZR, !mult_IZR in T. field_simplify_eq; [|lra]. lra. }
  assert (V0 : 0 <= IZR r / IZR d) by (apply Rmult_le_pos; [apply IZR_le; lia|left; now apply Rinv_0_lt_compat]).
  assert (V1 : IZR r / IZR d < 2).
  { apply (Rmult_lt_reg_r (IZR d)); [exact D|]. unfold Rdiv. rewrite Rmult_assoc, Rinv_l, Rmult_1_r by lra. rewrite <- mult_IZR. apply IZR_lt. lia. }
  rewrite V. set (t := IZR r / IZR d) in *. apply IZR_le in Q. unfold away. replace (IZR q + (t - 1) / 2 - IZR q) with ((t - 1) / 2) by ring. split.
  - apply Rabs_le. lra.
  - intros T. assert (t = 0) as T0 by (destruct (Rcase_abs ((t - 1) / 2)) as [L|L]; [rewrite (Rabs_left _ L) in T; lra|rewrite (Rabs_right _ L) in T; lra]).
    assert (M : 0 <= IZR m / IZR d) by (apply Rmult_le_pos; [apply IZR_le; lia|left; now apply Rinv_0_lt_compat]). rewrite V in M. fold t in M.
    rewrite (Rabs_pos_eq _ M), Rabs_pos_eq by assumption. lra.
Qed.
Lemma away_int r : away (IZR r) r.
Proof. unfold away. rewrite Rminus_diag_eq, Rabs_R0 by reflexivity. split; lra. Qed.
(** The only integer nearer than one half. *)
Lemma away_near x r z : away x r -> Rabs (x - IZR z) < / 2 -> r = z.
Proof.
  intros [H _] H2. assert (A : Rabs (IZR (r - z)) < 1).
  { rewrite minus_IZR. replace (IZR r - IZR z) with (- (x - IZR r) + (x - IZR z)) by ring. eapply Rle_lt_trans; [apply Rabs_triang|]. rewrite Rabs_Ropp. lra. }
  rewrite <- abs_IZR in A. apply lt_IZR in A. lia.
Qed.

Lemma finite_shape s m e : finite64 (S754_finite s m e) -> (e < 0)%Z -> (0 <= div_half_away (Z.pos m) (2 ^ (- e)) <= 2 ^ 53)%Z.
Proof.
  intros F He. apply finite_bounds in F. destruct F as [F _]. assert (P : (2 <= 2 ^ (- e))%Z) by (change 2%Z with (2 ^ 1)%Z at 1; apply Z.pow_le_mono_r; lia).
  unfold div_half_away. split; [apply Z.div_pos; lia|]. apply Z.div_le_upper_bound; [lia|]. nia.
Qed.
(** round() gives an integer, the nearest. *)
Lemma c_round_real f : finite64 f -> exists z, finite64 (c_round f) /\ fval (c_round f) = IZR z /\ away (fval f) z.
Proof.
  intros F. destruct f as [s|s| |s m e]; try (destruct F; discriminate).
  - exists 0%Z. cbn [c_round]. split; [exact F|]. split; [reflexivity|]. apply (away_int 0).
  - cbn [c_round]. destruct (Z.leb_spec 0 e) as [L|L].
    + exists (signed_Z s (Z.pos m * 2 ^ e)). split; [exact F|].
      assert (V : fval (S754_finite s m e) = IZR (signed_Z s (Z.pos m * 2 ^ e))).
      { change (num_real (NFlt (S754_finite s m e)) = IZR (signed_Z s (Z.pos m * 2 ^ e))). rewrite mag_real. unfold F2R. cbn [Fnum Fexp]. rewrite <- IZR_Zpower by assumption.
        rewrite <- mult_IZR. change (Zpower radix2 e) with (2 ^ e)%Z. destruct s; unfold signed_Z; f_equal; ring. }
      split; [exact V|]. rewrite V. apply away_int.
    + pose proof (finite_shape s m e F L) as B. set (z := div_half_away (Z.pos m) (2 ^ (- e))) in *.
      assert (A : away (fval (S754_finite s m e)) (signed_Z s z)).
      { assert (A : away (F2R (Float radix2 (Z.pos m) e)) z) by (rewrite pos_value by assumption; apply away_div; [lia|apply Z.pow_pos_nonneg; lia]).
        unfold fval. cbn [SF2R]. destruct s; cbn [cond_Zopp signed_Z]; [|exact A]. change (Z.neg m) with (- Z.pos m)%Z. rewrite F2R_Zopp. now apply away_opp. }
      exists (signed_Z s z). destruct (Z.eqb_spec z 0) as [Z0|N].
      * split; [split; reflexivity|]. rewrite Z0 in *. split; [destruct s; reflexivity|exact A].
      * assert (AB : (Z.abs (signed_Z s z) <= 2 ^ 53)%Z) by (destruct s; unfold signed_Z; lia).
        destruct (norm_real (signed_Z s z) 0) as [N1 N2].
        { rewrite F2R_int, rnd_int by exact AB. rewrite <- abs_IZR. apply Rle_lt_trans with (IZR (2 ^ 53)); [now apply IZR_le|].
          change (IZR (2 ^ 53)) with (bpow radix2 53). unfold big. apply bpow_lt. lia. }
        unfold prec, emax. split; [exact N1|]. rewrite N2, F2R_int, rnd_int by exact AB. split; [reflexivity|exact A].
Qed.

(** The integral part of a finite float *)
Lemma py_int_trunc f : finite64 f -> exists z, py_int (NFlt f) = Ok z /\ z = Ztrunc (fval f).
Proof.
  intros F. destruct f as [s|s| |s m e]; try (destruct F; discriminate); cbn [py_int].
  - exists 0%Z. split; [reflexivity|]. unfold fval. cbn. now rewrite Ztrunc_IZR.
  - eexists. split; [reflexivity|]. assert (P : forall k, F2R (Float radix2 (Z.pos k) e) = F2R (Float radix2 (Z.pos k) e)) by reflexivity.
    assert (T : mag_trunc m e = Ztrunc (F2R (Float radix2 (Z.pos m) e))).
    { unfold mag_trunc. destruct (Z.leb_spec 0 e) as [L|L].
      - unfold F2R. cbn [Fnum Fexp]. rewrite <- IZR_Zpower, <- mult_IZR by assumption. now rewrite Ztrunc_IZR.
      - rewrite pos_value by assumption. rewrite Ztrunc_floor; [rewrite Zfloor_div; [reflexivity|]; assert (0 < 2 ^ (- e))%Z by (apply Z.pow_pos_nonneg; lia); lia|].
        apply Rmult_le_pos; [apply IZR_le; lia|]. left. apply Rinv_0_lt_compat, IZR_lt. apply Z.pow_pos_nonneg; lia. }
    unfold fval. cbn [SF2R]. destruct s; cbn [cond_Zopp signed_Z]; [|exact T]. change (Z.neg m) with (- Z.pos m)%Z. rewrite F2R_Zopp, Ztrunc_opp. now f_equal.
Qed.
Definition in_ctype (signed : bool) (w z : Z) : Prop := if signed then (- 2 ^ (w - 1) <= z <= 2 ^ (w - 1) - 1)%Z else (0 <= z <= 2 ^ w - 1)%Z.
Lemma cast_int_real signed w f z : finite64 f -> cast_int signed w f = Some z <-> z = Ztrunc (fval f) /\ in_ctype signed w z.
Proof.
  intros F. unfold cast_int. destruct (py_int_trunc f F) as (t & -> & ->). unfold in_ctype. split.
  - destruct signed; destruct (_ && _) eqn:E; try discriminate; intros H; injection H as <-; apply andb_true_iff in E; destruct E as [E1 E2]; apply Z.leb_le in E1, E2; auto.
  - intros [-> H]. destruct signed; destruct H as [H1 H2]; apply Z.leb_le in H1, H2; rewrite H1, H2; reflexivity.
Qed.
Lemma cast_int_finite signed w f z : valid_binary 53 1024 f = true -> cast_int signed w f = Some z -> finite64 f.
Proof. intros V. unfold cast_int. destruct f; cbn; try discriminate; intros _; split; try exact V; reflexivity. Qed.

(** ** The value of the expressions *)
Lemma literal_real n f : num_finite n -> c_literal n = Some f -> finite64 f /\ fval f = rnd (num_real n).
Proof.
  intros F H. destruct n as [z|g]; cbn [c_literal] in H.
  - destruct (float_of_Z z) as [g|] eqn:E; [|discriminate]. injection H as <-. cbn [num_real]. unfold float_of_Z in E.
    destruct (is_inf (SpecFloat.binary_normalize prec emax z 0 false)) eqn:I; [discriminate|]. apply Ok_inj in E. subst g.
    unfold prec, emax in *. rewrite binary_normalize_equiv in *. pose proof (binary_normalize_correct _ _ FloatReal.Hprec FloatReal.Hmax mode_NE z 0 false) as C. cbv zeta in C. rewrite F2R_int in C.
    destruct (Rlt_bool _ _) in C.
    + destruct C as (C1 & C2 & _). rewrite fval_bin. split; [now apply fin_bin|exact C1].
    + rewrite C in I. discriminate I.
  - destruct g as [s|s| |s m e]; try discriminate; injection H as <-; (split; [exact F|]); cbn [num_real]; now rewrite rnd_fval.
Qed.
Lemma eq_real n z : py_eq n (NInt z) = true -> num_real n = IZR z.
Proof. apply equals_int_real. Qed.
(** The operations are finite if and only if they do not overflow. *)
Lemma fsub_iff a b : finite64 a -> finite64 b -> finite64 (fsub a b) -> Rabs (rnd (fval a - fval b)) < big.
Proof.
  intros [Va Fa] [Vb Fb]. destruct (to_bin a Va) as [x <-], (to_bin b Vb) as [y <-]. rewrite is_finite_SF_B2SF in Fa, Fb. rewrite fsub_equiv, !fval_bin. intros [_ F].
  pose proof (Bminus_correct _ _ _ _ mode_NE x y Fa Fb) as C. destruct (Rlt_bool_spec (Rabs (round radix2 (SpecFloat.fexp 53 1024) (round_mode mode_NE) (B2R x - B2R y))) (bpow radix2 1024)) as [L|L]; [exact L|].
  destruct C as [C _]. rewrite C in F. discriminate F.
Qed.
Lemma fdiv_iff a b : finite64 a -> finite64 b -> fval b <> 0 -> finite64 (fdiv a b) -> Rabs (rnd (fval a / fval b)) < big.
Proof.
  intros [Va Fa] [Vb Fb]. destruct (to_bin a Va) as [x <-], (to_bin b Vb) as [y <-]. rewrite is_finite_SF_B2SF in Fa, Fb. rewrite fdiv_equiv, !fval_bin. intros NZ [_ F].
  pose proof (Bdiv_correct _ _ _ _ mode_NE x y NZ) as C. destruct (Rlt_bool_spec (Rabs (round radix2 (SpecFloat.fexp 53 1024) (round_mode mode_NE) (B2R x / B2R y))) (bpow radix2 1024)) as [L|L]; [exact L|].
  rewrite C in F. discriminate F.
Qed.
Lemma rnd_rnd x : rnd (rnd x) = rnd x.
Proof. unfold rnd. apply round_generic; [typeclasses eauto|]. apply generic_format_round; typeclasses eauto. Qed.
Lemma rnd_one : rnd 1 = 1.
Proof. apply (rnd_int 1). lia. Qed.
Lemma rnd_zero : rnd 0 = 0.
Proof. apply (rnd_int 0). lia. Qed.

Section Expr.
  Context (c : conversion) (fs fo : float) (FS : num_finite (conv_scale c)) (FO : num_finite (conv_offset c))
    (LS : c_literal (conv_scale c) = Some fs) (LO : c_literal (conv_offset c) = Some fo) (NZ : fval fs <> 0).
  Definition no_round : cfexpr := encode_expr c false.
  (** The quotient is computed with two roundings, in every case of the generator. *)
  Lemma quotient_real v : finite64 v -> Rabs (rnd (fval v - fval fo)) < big -> Rabs (rnd (rnd (fval v - fval fo) / fval fs)) < big ->
    exists q, cf_eval no_round v = Some q /\ finite64 q /\ fval q = rnd (rnd (fval v - fval fo) / fval fs).
  Proof.
    intros V B1 B2. destruct (literal_real _ _ FS LS) as [S1 S2], (literal_real _ _ FO LO) as [O1 O2].
    unfold no_round, encode_expr. rewrite andb_false_r.
    assert (O0 : py_eq (conv_offset c) (NInt 0) = true -> rnd (fval v - fval fo) = fval v).
    { intros E. rewrite O2, (eq_real _ _ E), rnd_zero, Rminus_0_r. now apply rnd_fval. }
    assert (S0 : py_eq (conv_scale c) (NInt 1) = true -> forall x, rnd (rnd x / fval fs) = rnd x).
    { intros E x. rewrite S2, (eq_real _ _ E), rnd_one. unfold Rdiv. rewrite Rinv_1, Rmult_1_r. apply rnd_rnd. }
    destruct (py_eq (conv_offset c) (NInt 0)) eqn:E0, (py_eq (conv_scale c) (NInt 1)) eqn:E1; cbn [andb negb cf_eval].
    - exists v. split; [reflexivity|]. split; [exact V|]. rewrite S0, O0 by reflexivity. reflexivity.
    - rewrite LS. rewrite O0 in * by reflexivity. destruct (fdiv_real v fs V S1 NZ B2) as [D1 D2]. exists (fdiv v fs). auto.
    - rewrite LO. rewrite S0 in * by reflexivity. destruct (fsub_real v fo V O1 B1) as [D1 D2]. exists (fsub v fo). auto.
    - rewrite LO, LS. destruct (fsub_real v fo V O1 B1) as [D1 D2]. rewrite <- D2 in B2. destruct (fdiv_real (fsub v fo) fs D1 S1 NZ B2) as [T1 T2]. exists (fdiv (fsub v fo) fs). rewrite T2, D2. rewrite D2 in T2. auto.
  Qed.
  Lemma quotient_bounds v q : finite64 v -> cf_eval no_round v = Some q -> finite64 q -> Rabs (rnd (fval v - fval fo)) < big /\ Rabs (rnd (rnd (fval v - fval fo) / fval fs)) < big.
  Proof.
    intros V E Q. destruct (literal_real _ _ FS LS) as [S1 S2], (literal_real _ _ FO LO) as [O1 O2].
    assert (O0 : py_eq (conv_offset c) (NInt 0) = true -> rnd (fval v - fval fo) = fval v).
    { intros EE. rewrite O2, (eq_real _ _ EE), rnd_zero, Rminus_0_r. now apply rnd_fval. }
    assert (S0 : py_eq (conv_scale c) (NInt 1) = true -> forall x, rnd (rnd x / fval fs) = rnd x).
    { intros EE x. rewrite S2, (eq_real _ _ EE), rnd_one. unfold Rdiv. rewrite Rinv_1, Rmult_1_r. apply rnd_rnd. }
    unfold no_round, encode_expr in E. rewrite andb_false_r in E.
    destruct (py_eq (conv_offset c) (NInt 0)) eqn:E0, (py_eq (conv_scale c) (NInt 1)) eqn:E1; cbn [andb negb cf_eval] in E; try rewrite LS in E; try rewrite LO in E; injection E as <-.
    - rewrite S0, O0 by reflexivity. split; now apply fval_bounded.
    - rewrite O0 by reflexivity. split; [now apply fval_bounded|now apply fdiv_iff].
    - rewrite S0 by reflexivity. split; now apply fsub_iff.
    - assert (D : finite64 (fsub v fo)).
      { destruct V as [Vv Fv], O1 as [Vo Fo], S1 as [Vs Fs], Q as [_ FQ]. destruct (to_bin v Vv) as [x <-], (to_bin fo Vo) as [y <-], (to_bin fs Vs) as [z <-]. rewrite fsub_equiv in *. split; [apply valid_binary_B2SF|].
        rewrite is_finite_SF_B2SF in *. destruct (Bminus mode_NE x y) as [s|s| |s m e ?]; try reflexivity; exfalso; destruct z as [t|t| |t m' e' ?]; cbn in *; try discriminate; try (now apply NZ).
      }
      pose proof (fsub_iff _ _ V O1 D) as B1. split; [exact B1|]. destruct (fsub_real v fo V O1 B1) as [_ D2]. rewrite <- D2. now apply fdiv_iff.
  Qed.
  (** decode is computed with two roundings *)
  Lemma decode_real v : finite64 v -> Rabs (rnd (fval v * fval fs)) < big -> Rabs (rnd (rnd (fval v * fval fs) + fval fo)) < big ->
    exists f, cf_eval (decode_expr c) v = Some f /\ finite64 f /\ fval f = rnd (rnd (fval v * fval fs) + fval fo).
  Proof.
    intros V B1 B2. destruct (literal_real _ _ FS LS) as [S1 S2], (literal_real _ _ FO LO) as [O1 O2]. unfold decode_expr.
    assert (O0 : py_eq (conv_offset c) (NInt 0) = true -> forall x, rnd (rnd x + fval fo) = rnd x).
    { intros E x. rewrite O2, (eq_real _ _ E), rnd_zero, Rplus_0_r. apply rnd_rnd. }
    assert (S0 : py_eq (conv_scale c) (NInt 1) = true -> rnd (fval v * fval fs) = fval v).
    { intros E. rewrite S2, (eq_real _ _ E), rnd_one, Rmult_1_r. now apply rnd_fval. }
    destruct (py_eq (conv_offset c) (NInt 0)) eqn:E0, (py_eq (conv_scale c) (NInt 1)) eqn:E1; cbn [andb negb cf_eval].
    - exists v. split; [reflexivity|]. split; [exact V|]. rewrite O0, S0 by reflexivity. reflexivity.
    - rewrite LS. rewrite O0 in * by reflexivity. destruct (fmul_real v fs V S1 B1) as [D1 D2]. exists (fmul v fs). auto.
    - rewrite LO. rewrite S0 in * by reflexivity. destruct (fadd_real v fo V O1 B2) as [D1 D2]. exists (fadd v fo). auto.
    - rewrite LO, LS. destruct (fmul_real v fs V S1 B1) as [D1 D2]. rewrite <- D2 in B2. destruct (fadd_real (fmul v fs) fo D1 O1 B2) as [T1 T2]. exists (fadd (fmul v fs) fo). rewrite T2, D2. rewrite D2 in T2. auto.
  Qed.
End Expr.

Lemma round_expr c : conv_is_float c = false -> encode_expr c true = FRound (encode_expr c false).
Proof. intros E. unfold encode_expr. rewrite E, andb_false_r. reflexivity. Qed.
Lemma literal_exists n : num_finite n -> Rabs (rnd (num_real n)) < big -> exists f, c_literal n = Some f.
Proof.
  intros F B. destruct n as [z|f]; cbn [c_literal].
  - destruct (float_of_Z_real z B) as (f & -> & _). eauto.
  - destruct f; try (destruct F; discriminate); eauto.
Qed.
(** What is computed from the quotient *)
Lemma encode_rounds c signed w v q : conv_is_float c = false -> cf_eval (encode_expr c false) v = Some q -> finite64 q ->
  exists z, away (fval q) z /\ forall r, c_encode c signed w true v = Some r <-> r = z /\ in_ctype signed w r.
Proof.
  intros E H F. destruct (c_round_real q F) as (z & F2 & V & A). exists z. split; [exact A|]. intros r. unfold c_encode. rewrite round_expr by exact E. cbn [cf_eval]. rewrite H.
  rewrite cast_int_real by exact F2. rewrite V, Ztrunc_IZR. reflexivity.
Qed.
Lemma encode_truncates c signed w v q : cf_eval (encode_expr c false) v = Some q -> finite64 q ->
  forall r, c_encode c signed w false v = Some r <-> r = Ztrunc (fval q) /\ in_ctype signed w r.
Proof. intros H F r. unfold c_encode. rewrite H. now apply cast_int_real. Qed.

Lemma rnd_bpow e : (-1022 <= e <= 1000)%Z -> rnd (bpow radix2 e) = bpow radix2 e.
Proof. intros H. unfold rnd. apply round_generic; [typeclasses eauto|]. change (SpecFloat.fexp 53 1024) with (FLT_exp (-1074) 53). apply generic_format_bpow. unfold FLT_exp. lia. Qed.
Lemma rnd_abs x : rnd (Rabs x) = Rabs (rnd x).
Proof. unfold rnd. apply round_NE_abs. typeclasses eauto. Qed.

(** ** Round trip *)
Lemma trunc_near q r : Rabs (q - IZR r) < / 2 -> Ztrunc q = r \/ Ztrunc q = (r - Z.sgn r)%Z.
Proof.
  intros H. apply Rabs_def2 in H. destruct H as [H1 H2]. destruct (Z_lt_le_dec 0 r) as [P|P].
  - assert (1 <= IZR r) by (apply IZR_le; lia). rewrite Ztrunc_floor by lra. destruct (Rle_lt_dec (IZR r) q) as [L|L].
    + left. apply Zfloor_imp. rewrite plus_IZR. lra.
    + right. rewrite Z.sgn_pos by exact P. apply Zfloor_imp. rewrite plus_IZR, minus_IZR. lra.
  - destruct (Z.eq_dec r 0) as [-> | N].
    + left. destruct (Rle_lt_dec 0 q) as [L|L]; [rewrite Ztrunc_floor by exact L; apply Zfloor_imp; cbn; lra|].
      rewrite Ztrunc_ceil by lra. apply Zceil_imp. cbn. lra.
    + assert (IZR r <= -1) by (apply IZR_le; lia). rewrite Ztrunc_ceil by lra. destruct (Rle_lt_dec q (IZR r)) as [L|L].
      * left. apply Zceil_imp. rewrite minus_IZR. lra.
      * right. rewrite Z.sgn_neg by lia. apply Zceil_imp. rewrite !minus_IZR. lra.
Qed.
Lemma decoded_quotient c r : conv_is_float c = false -> sane_linear (conv_scale c) (conv_offset c) -> (Z.abs r <= 2 ^ 49)%Z ->
  exists f q, c_decode c r = Some f /\ finite64 f /\ cf_eval (encode_expr c false) f = Some q /\ finite64 q /\ Rabs (fval q - IZR r) < / 2.
Proof.
  intros E (FS & FO & [S1 S2] & HO) Hr. set (SR := num_real (conv_scale c)) in *. set (OR := num_real (conv_offset c)) in *.
  assert (B900 : bpow radix2 900 * (8 * two49) <= bpow radix2 1000).
  { replace (8 * two49) with (bpow radix2 52) by (unfold two49; cbn; lra). rewrite <- bpow_plus. apply bpow_le. lia. }
  assert (Hs : 0 < Rabs SR) by (eapply Rlt_le_trans; [apply bpow_gt_0|exact S1]). rewrite bpow48 in HO.
  assert (He : eta <= Rabs SR * eps).
  { eapply Rle_trans; [apply eta_small|]. apply Rmult_le_compat_r; [unfold eps; lra|assumption]. }
  destruct (literal_exists _ FS) as [fs LS]; [apply rnd_bounded; fold SR; unfold two49 in *; lra|].
  destruct (literal_exists _ FO) as [fo LO]; [apply rnd_bounded; fold OR; unfold two48, two49 in *; lra|].
  destruct (literal_real _ _ FS LS) as [F1 F2], (literal_real _ _ FO LO) as [F3 F4]. fold SR in F2. fold OR in F4.
  assert (ES : Rabs (fval fs - SR) <= 2 * Rabs SR * eps) by (rewrite F2; pose proof (rnd_error SR); lra).
  assert (EO : Rabs (fval fo - OR) <= Rabs OR * eps + eta) by (rewrite F4; apply rnd_error).
  assert (T1 : bpow radix2 (-900) <= Rabs (fval fs)).
  { rewrite F2, <- rnd_abs, <- (rnd_bpow (-900)) by lia. now apply rnd_le. }
  assert (T2 : Rabs SR - 2 * Rabs SR * eps <= Rabs (fval fs)) by (rewrite Rabs_minus_sym in ES; apply Rabs_near in ES; lra).
  assert (T3 : Rabs (fval fs) <= Rabs SR + 2 * Rabs SR * eps) by (apply Rabs_near in ES; lra).
  assert (T4 : Rabs (fval fo) <= (two48 + 1) * Rabs (fval fs)).
  { apply Rabs_near in EO. unfold two48, eps in *. lra. }
  assert (HRr : Rabs (IZR r) <= two49) by (rewrite <- abs_IZR; apply IZR_le in Hr; exact Hr).
  destruct (round_trip_error (IZR r) (fval fs) (fval fo) (fval fs) HRr T1 T4) as (Y1 & Y2 & Y3 & Y4 & Y5 & _).
  { rewrite Rminus_diag_eq, Rabs_R0 by reflexivity. pose proof (Rabs_pos (fval fs)). unfold eps. lra. }
  assert (FB : 2 * two49 * Rabs (fval fs) <= bpow radix2 1000) by (unfold two49, eps in *; lra).
  assert (P1 : Rabs (IZR r * fval fs) <= two49 * Rabs (fval fs)) by (apply Rabs_mult_le; [assumption|lra]).
  assert (RB : (Z.abs r <= 2 ^ 53)%Z) by lia.
  destruct (float_of_Z_real r) as (fr & R1 & R2 & R3).
  { apply rnd_bounded. eapply Rle_trans; [exact HRr|]. rewrite <- bpow49. apply bpow_le. lia. }
  rewrite rnd_int in R3 by exact RB.
  destruct (decode_real c fs fo FS FO LS LO fr R2) as (f & D1 & D2 & D3).
  { rewrite R3. apply rnd_bounded. pose proof (Rabs_pos (fval fs)). unfold two49 in *. lra. }
  { rewrite R3. apply rnd_bounded. lra. }
  rewrite R3 in D3.
  destruct (quotient_real c fs fo FS FO LS LO Y3 f D2) as (q & Q1 & Q2 & Q3).
  { rewrite D3. apply rnd_bounded. lra. }
  { rewrite D3. apply rnd_bounded. eapply Rle_trans; [exact Y4|]. replace (2 * two49) with (bpow radix2 50) by (unfold two49; cbn; lra). apply bpow_le. lia. }
  exists f, q. unfold c_decode. rewrite R1. rewrite D3 in Q3. rewrite Q3. auto.
Qed.

(** ** C63 *)
(** With --use-round the generated encode inverts the generated decode, for raw values of up to 49 bits. *)
Theorem C63_round_trip c signed w r : conv_is_float c = false -> sane_linear (conv_scale c) (conv_offset c) -> (Z.abs r <= 2 ^ 49)%Z -> in_ctype signed w r ->
  exists f, c_decode c r = Some f /\ finite64 f /\ c_encode c signed w true f = Some r.
Proof.
  intros E S R T. destruct (decoded_quotient c r E S R) as (f & q & D & F & Q & FQ & N). exists f. split; [exact D|]. split; [exact F|].
  destruct (encode_rounds c signed w f q E Q FQ) as (z & A & H). apply H. split; [symmetry; exact (away_near _ _ _ A N)|exact T].
Qed.
(** Without it the result may be one step nearer to zero. *)
Theorem C63_truncated c signed w r : conv_is_float c = false -> sane_linear (conv_scale c) (conv_offset c) -> (Z.abs r <= 2 ^ 49)%Z -> in_ctype signed w r -> (0 < w)%Z ->
  exists f z, c_decode c r = Some f /\ c_encode c signed w false f = Some z /\ (z = r \/ z = (r - Z.sgn r)%Z).
Proof.
  intros E S R T W. destruct (decoded_quotient c r E S R) as (f & q & D & F & Q & FQ & N). exists f, (Ztrunc (fval q)). split; [exact D|].
  pose proof (trunc_near _ _ N) as TN. split; [|exact TN]. apply (encode_truncates c signed w f q Q FQ). split; [reflexivity|].
  assert (P : (1 <= 2 ^ (w - 1))%Z) by (assert (0 < 2 ^ (w - 1))%Z by (apply Z.pow_pos_nonneg; lia); lia).
  unfold in_ctype in *. destruct signed, TN as [-> | ->]; try exact T; destruct (Z.lt_trichotomy r 0) as [L|[L|L]]; try (rewrite Z.sgn_neg by exact L); try (rewrite Z.sgn_pos by exact L); try (subst r; cbn [Z.sgn]); lia.
Qed.
(** 0.1 and -40, as of many temperatures: decode(3) is -39.7, and encode gives 2. *)
Definition tenth_conv : conversion := CNum (CLin (NFlt f0_1) (NInt (-40)) false).
Lemma tenth_sane : sane_linear (NFlt f0_1) (NInt (-40)).
Proof.
  assert (V : num_real (NFlt f0_1) = 7205759403792794 * / 72057594037927936) by reflexivity.
  assert (P1 : bpow radix2 (-900) <= / 16) by (change (/ 16) with (bpow radix2 (-4)); apply bpow_le; lia).
  assert (P2 : 1 <= bpow radix2 900) by (change 1 with (bpow radix2 0); apply bpow_le; lia).
  split; [apply finite_by; vm_compute; reflexivity|]. split; [exact I|]. rewrite V, (Rabs_pos_eq (7205759403792794 * _)) by lra. split; [lra|].
  cbn [num_real]. rewrite Rabs_left by lra. rewrite bpow48. unfold two48. lra.
Qed.
Theorem C63_truncation_refuted :
  ~ (forall c signed w r f, conv_is_float c = false -> sane_linear (conv_scale c) (conv_offset c) -> (Z.abs r <= 2 ^ 49)%Z -> in_ctype signed w r ->
       c_decode c r = Some f -> c_encode c signed w false f = Some r).
Proof.
  intros H. destruct (c_decode tenth_conv 3) as [f|] eqn:E; [|vm_compute in E; discriminate E].
  specialize (H tenth_conv false 8%Z 3%Z f eq_refl tenth_sane ltac:(lia) ltac:(cbn; lia) E). vm_compute in E. injection E as <-. vm_compute in H. discriminate H.
Qed.

(** A number that is a double *)
Definition is_double (n : num) : Prop := num_finite n /\ exists f, finite64 f /\ fval f = num_real n.
Lemma double_literal n : is_double n -> exists f, c_literal n = Some f /\ finite64 f /\ fval f = num_real n.
Proof.
  intros [F (g & G & V)]. assert (R : rnd (num_real n) = num_real n) by (rewrite <- V; now apply rnd_fval).
  destruct (literal_exists n F) as [f L]; [rewrite R, <- V; now apply fval_bounded|]. destruct (literal_real n f F L) as [F1 F2]. exists f. rewrite F2. auto.
Qed.
Lemma double_float n : is_double n -> exists f, to_float n = Ok f /\ finite64 f /\ fval f = num_real n.
Proof.
  intros [F (g & G & V)]. assert (R : rnd (num_real n) = num_real n) by (rewrite <- V; now apply rnd_fval).
  destruct (to_float_real n F) as (f & E & F1 & F2); [rewrite R, <- V; now apply fval_bounded|]. exists f. rewrite F2. auto.
Qed.
(** The parameters of a conversion of the factory *)
Inductive params (scale offset : num) : num_conv -> Prop :=
| params_id : num_real scale = 1 -> num_real offset = 0 -> params scale offset (CIdent false)
| params_int s o : num_real scale = IZR s -> num_real offset = IZR o -> params scale offset (CLinInt s o)
| params_lin : ~ two_ints scale offset -> params scale offset (CLin scale offset false).
Lemma factory_params scale offset ch c : num_finite scale -> num_finite offset -> factory scale offset ch false = Ok c ->
  exists n, params scale offset n /\ conv_is_float c = false /\
    (forall v, numeric_scaled_to_raw c v = nc_numeric_scaled_to_raw n v) /\
    (forall r, raw_to_scaled c r false = let* v := nc_raw_to_scaled n r in Ok (VNum v)) /\
    num_finite (conv_scale c) /\ num_finite (conv_offset c) /\ num_real (conv_scale c) = num_real scale /\ num_real (conv_offset c) = num_real offset.
Proof.
  intros FS FO H. unfold factory in H. destruct (num_factory scale offset false) as [n|] eqn:N; [|discriminate]. cbn [bind] in H.
  assert (P : params scale offset n /\ nc_is_float n = false /\ num_finite (nc_scale n) /\ num_finite (nc_offset n) /\ num_real (nc_scale n) = num_real scale /\ num_real (nc_offset n) = num_real offset).
  { unfold num_factory in N. destruct (py_eq scale (NInt 1) && py_eq offset (NInt 0)) eqn:E1.
    - apply Ok_inj in N. subst n. apply andb_true_iff in E1. destruct E1 as [E1 E2]. apply eq_real in E1, E2. cbn [nc_is_float nc_scale nc_offset num_finite]. rewrite E1, E2. repeat split; [now apply params_id].
    - destruct (is_integer scale && is_integer offset) eqn:E2; cbn [andb negb] in N.
      + apply andb_true_iff in E2. destruct E2 as [I1 I2]. destruct (integral_equals scale FS I1) as [s Hs], (integral_equals offset FO I2) as [o Ho].
        destruct (equals_int_spec _ _ Hs) as [_ Ps], (equals_int_spec _ _ Ho) as [_ Po]. rewrite Ps, Po in N. cbn [bind] in N. apply Ok_inj in N. subst n.
        apply equals_int_real in Hs, Ho. cbn [nc_is_float nc_scale nc_offset num_finite num_real]. rewrite Hs, Ho. repeat split; [now apply params_int].
      + apply Ok_inj in N. subst n. cbn [nc_is_float nc_scale nc_offset]. split; [apply params_lin; destruct scale, offset; cbn; auto; discriminate E2|]. auto. }
  destruct P as (P & F & P1 & P2 & P3 & P4). exists n. destruct ch as [ch|]; apply Ok_inj in H; subst c; cbn [conv_is_float conv_scale conv_offset]; auto 10.
Qed.

(** The generated decode computes what decode() gives, if all numbers are doubles and integers up to 2^53. *)
Theorem C63_decode scale offset ch c r : is_double scale -> is_double offset -> factory scale offset ch false = Ok c -> (Z.abs r <= 2 ^ 53)%Z ->
  Rabs (IZR r * num_real scale) <= bpow radix2 53 -> Rabs (IZR r * num_real scale + num_real offset) <= bpow radix2 53 ->
  exists v f, raw_to_scaled c (NInt r) false = Ok (VNum v) /\ c_decode c r = Some f /\ finite64 f /\ fval f = num_real v.
Proof.
  intros DS DO H R B1 B2. destruct (factory_params scale offset ch c (proj1 DS) (proj1 DO) H) as (n & P & _ & _ & RS & F1 & F2 & V1 & V2).
  destruct (double_literal (conv_scale c)) as (fs & LS & S1 & S2); [split; [exact F1|]; rewrite V1; apply DS|].
  destruct (double_literal (conv_offset c)) as (fo & LO & O1 & O2); [split; [exact F2|]; rewrite V2; apply DO|]. rewrite V1 in S2. rewrite V2 in O2.
  assert (RB : Rabs (rnd (IZR r)) < big).
  { rewrite rnd_int by exact R. rewrite <- abs_IZR. apply Rle_lt_trans with (IZR (2 ^ 53)); [now apply IZR_le|]. change (IZR (2 ^ 53)) with (bpow radix2 53). unfold big. apply bpow_lt. lia. }
  destruct (float_of_Z_real r RB) as (fr & R1 & R2 & R3). rewrite rnd_int in R3 by exact R.
  assert (T : bpow radix2 53 <= bpow radix2 1000) by (apply bpow_le; lia).
  assert (T0 : 1 <= bpow radix2 53) by (change 1 with (bpow radix2 0); apply bpow_le; lia).
  assert (T2 : 8 * bpow radix2 53 <= bpow radix2 1000) by (change 8 with (bpow radix2 3); rewrite <- bpow_plus; apply bpow_le; lia).
  assert (BB : Rabs (rnd (IZR r * num_real scale) + num_real offset) <= bpow radix2 1000).
  { pose proof (rnd_error (IZR r * num_real scale)) as ER. pose proof eta_tiny. replace (rnd (IZR r * num_real scale) + num_real offset) with ((rnd (IZR r * num_real scale) - IZR r * num_real scale) + (IZR r * num_real scale + num_real offset)) by ring.
    eapply Rle_trans; [apply Rabs_triang|]. unfold eps in *. lra. }
  destruct (decode_real c fs fo F1 F2 LS LO fr R2) as (f & D1 & D2 & D3).
  { rewrite R3, S2. apply rnd_bounded. lra. }
  { rewrite R3, S2, O2. now apply rnd_bounded. }
  rewrite R3, S2, O2 in D3. rewrite RS. unfold c_decode. rewrite R1.
  assert (G : exists v, nc_raw_to_scaled n (NInt r) = Ok v /\ num_real v = rnd (rnd (IZR r * num_real scale) + num_real offset)).
  { destruct P as [P1 P2|s o P1 P2|NT]; cbn [nc_raw_to_scaled].
    - exists (NInt r). split; [reflexivity|]. rewrite P1, P2, Rmult_1_r, Rplus_0_r, rnd_rnd, rnd_int by exact R. reflexivity.
    - exists (NInt (r * s + o)). split; [reflexivity|]. rewrite P1, P2 in *. cbn [num_real]. rewrite <- mult_IZR in *.
      assert (A1 : (Z.abs (r * s) <= 2 ^ 53)%Z) by (rewrite <- abs_IZR in B1; change (bpow radix2 53) with (IZR (2 ^ 53)) in B1; now apply le_IZR in B1).
      rewrite rnd_int by exact A1. rewrite <- plus_IZR in *.
      assert (A2 : (Z.abs (r * s + o) <= 2 ^ 53)%Z) by (rewrite <- abs_IZR in B2; change (bpow radix2 53) with (IZR (2 ^ 53)) in B2; now apply le_IZR in B2).
      now rewrite rnd_int by exact A2.
    - destruct (py_mul_real r scale R (proj1 DS)) as (p & P1 & P2 & P3 & P4); [lra|]. rewrite P1. cbn [bind].
      destruct (to_float_real p P2) as (fp & Q1 & Q2 & Q3); [rewrite P4; apply rnd_bounded; lra|]. rewrite P4 in Q3.
      destruct (double_float offset DO) as (g & G1 & G2 & G3).
      destruct (py_addsub_real true p offset fp g) as (y & A1 & A2 & A3); try assumption.
      { destruct p, offset; try exact I. destruct scale; [now apply NT|contradiction]. }
      { rewrite Q3, G3. exact BB. }
      exists (NFlt y). split; [exact A1|]. cbn [num_real]. rewrite A3, Q3, G3. reflexivity. }
  destruct G as (v & -> & G). exists v, f. cbn [bind]. rewrite D3, G. auto.
Qed.

(** encode() and the generated encode round the same quotient: encode() to the nearest integer and the even one of two,
    the generated function with --use-round to the nearest and away from zero, without it towards zero. *)
Theorem C63_encode scale offset ch c signed w v : is_double scale -> is_double offset -> factory scale offset ch false = Ok c ->
  bpow radix2 (-400) <= Rabs (num_real scale) <= bpow radix2 400 -> moderate offset -> moderate (NFlt v) ->
  exists q z z', scaled_to_raw c (VNum (NFlt v)) = Ok (NInt z) /\ nearest q z /\ away q z' /\ (z' = z \/ Rabs (q - IZR z) = / 2) /\
    (forall r, c_encode c signed w true v = Some r <-> r = z' /\ in_ctype signed w r) /\
    (forall r, c_encode c signed w false v = Some r <-> r = Ztrunc q /\ in_ctype signed w r).
Proof.
  intros DS DO H [B1 B2] [MO1 MO2] [MV1 MV2]. cbn [num_finite num_real] in MV1, MV2.
  destruct (factory_params scale offset ch c (proj1 DS) (proj1 DO) H) as (n & P & NF & SR & _ & F1 & F2 & V1 & V2).
  destruct (double_literal (conv_scale c)) as (fs & LS & S1 & S2); [split; [exact F1|]; rewrite V1; apply DS|].
  destruct (double_literal (conv_offset c)) as (fo & LO & O1 & O2); [split; [exact F2|]; rewrite V2; apply DO|]. rewrite V1 in S2. rewrite V2 in O2.
  assert (X : 1 <= bpow radix2 400) by (change 1 with (bpow radix2 0); apply bpow_le; lia).
  assert (X4 : 4 * bpow radix2 400 <= bpow radix2 600) by (change 4 with (bpow radix2 2); rewrite <- bpow_plus; apply bpow_le; lia).
  assert (X6 : bpow radix2 600 <= bpow radix2 1000) by (apply bpow_le; lia).
  set (d := rnd (fval v - num_real offset)) in *. set (q := rnd (d / num_real scale)) in *.
  assert (SB : Rabs (fval v - num_real offset) <= 2 * bpow radix2 400).
  { eapply Rle_trans; [apply (Rabs_triang (fval v) (- num_real offset))|]. rewrite Rabs_Ropp. lra. }
  assert (DB : Rabs d <= 4 * bpow radix2 400).
  { pose proof (rnd_error (fval v - num_real offset)) as ER. fold d in ER. pose proof eta_tiny. apply Rabs_near in ER. unfold eps in *. lra. }
  assert (SP : 0 < Rabs (num_real scale)) by (eapply Rlt_le_trans; [apply bpow_gt_0|exact B1]).
  assert (NZ : num_real scale <> 0) by (intros Q; rewrite Q, Rabs_R0 in SP; lra).
  assert (QB : Rabs (d / num_real scale) <= bpow radix2 1000).
  { unfold Rdiv. rewrite Rabs_mult, Rabs_inv. apply Rle_trans with (bpow radix2 600 * bpow radix2 400); [|rewrite <- bpow_plus; apply bpow_le; lia].
    apply Rmult_le_compat; [apply Rabs_pos|left; now apply Rinv_0_lt_compat|lra|].
    rewrite <- (Rinv_inv (bpow radix2 400)). apply Rinv_le; [apply Rinv_0_lt_compat, bpow_gt_0|]. rewrite <- bpow_opp. exact B1. }
  assert (D0 : Rabs (rnd (fval v - fval fo)) < big) by (rewrite O2; apply rnd_bounded; lra).
  assert (Q0 : Rabs (rnd (rnd (fval v - fval fo) / fval fs)) < big) by (rewrite O2, S2; fold d; now apply rnd_bounded).
  destruct (quotient_real c fs fo F1 F2 LS LO ltac:(now rewrite S2) v MV1 D0 Q0) as (g & G1 & G2 & G3). rewrite O2, S2 in G3. fold d in G3. fold q in G3.
  destruct (encode_rounds c signed w v g NF G1 G2) as (z' & A & H1). pose proof (encode_truncates c signed w v g G1 G2) as H2. rewrite G3 in A, H2.
  assert (FIN : forall f, finite64 f -> fval f = q -> exists z, py_round (NFlt f) = Ok z /\ nearest q z).
  { intros f FF E. destruct (py_round_nearest f (proj2 FF)) as (z & Z1 & Z2). rewrite E in Z2. eauto. }
  assert (PY : exists z, nc_numeric_scaled_to_raw n (NFlt v) = Ok (NInt z) /\ nearest q z).
  { destruct (double_float offset DO) as (go & E1 & E2 & E3). destruct (double_float scale DS) as (gs & E4 & E5 & E6).
    destruct P as [P1 P2|s o P1 P2|NT]; cbn [nc_numeric_scaled_to_raw].
    - assert (QV : fval v = q).
      { unfold q, d. rewrite P1, P2, Rminus_0_r. unfold Rdiv. rewrite Rinv_1, Rmult_1_r, rnd_rnd. symmetry. now apply rnd_fval. }
      destruct (FIN v MV1 QV) as (z & Z1 & Z2). rewrite Z1. cbn [bind]. eauto.
    - assert (DOo : is_double (NInt o)) by (split; [exact I|]; cbn [num_real]; rewrite <- P2; apply DO).
      assert (DSs : is_double (NInt s)) by (split; [exact I|]; cbn [num_real]; rewrite <- P1; apply DS).
      destruct (double_float (NInt o) DOo) as (ho & I1 & I2 & I3). destruct (double_float (NInt s) DSs) as (hs & J1 & J2 & J3).
      cbn [num_real] in I3, J3. rewrite <- P2 in I3. rewrite <- P1 in J3.
      destruct (py_addsub_real false (NFlt v) (NInt o) v ho) as (y & A1 & A2 & A3); try assumption; try exact I; try reflexivity; [rewrite I3; lra|]. rewrite I3 in A3. fold d in A3.
      cbv beta iota in A1. rewrite A1. cbn [bind]. unfold py_divmod. rewrite J1. cbn [to_float bind]. rewrite (fval_zero hs J2) by (rewrite J3; exact NZ).
      destruct (float_divmod y hs) as [fq fm] eqn:DM. cbn [bind]. destruct (py_eq (NFlt fm) (NInt 0)) eqn:EM.
      + destruct (divmod_real y hs fq fm A2 J2) as [M1 M2]; [rewrite J3; exact NZ|rewrite J3; eapply Rle_trans; [exact B2|apply bpow_le; lia]|rewrite A3, J3; apply rnd_bounded; exact QB|exact DM|exact EM|].
        rewrite A3, J3 in M2. destruct (FIN fq M1 M2) as (z & Z1 & Z2). cbn [bind]. rewrite Z1. cbn [bind]. eauto.
      + unfold py_truediv. rewrite J1. cbn [to_float bind]. rewrite (fval_zero hs J2) by (rewrite J3; exact NZ). cbn [bind].
        destruct (fdiv_real y hs A2 J2) as [M1 M2]; [rewrite J3; exact NZ|rewrite A3, J3; apply rnd_bounded; exact QB|]. rewrite A3, J3 in M2.
        destruct (FIN _ M1 M2) as (z & Z1 & Z2). rewrite Z1. cbn [bind]. eauto.
    - destruct (py_addsub_real false (NFlt v) offset v go) as (y & A1 & A2 & A3); try assumption; try exact I; try reflexivity; [rewrite E3; lra|]. rewrite E3 in A3. fold d in A3.
      cbv beta iota in A1. rewrite A1. cbn [bind]. unfold py_truediv. rewrite E4. cbn [to_float bind]. rewrite (fval_zero gs E5) by (rewrite E6; exact NZ). cbn [bind].
      destruct (fdiv_real y gs A2 E5) as [M1 M2]; [rewrite E6; exact NZ|rewrite A3, E6; apply rnd_bounded; exact QB|]. rewrite A3, E6 in M2.
      destruct (FIN _ M1 M2) as (z & Z1 & Z2). rewrite Z1. cbn [bind]. eauto. }
  destruct PY as (z & Z1 & Z2). exists q, z, z'. cbn [scaled_to_raw]. rewrite SR. split; [exact Z1|]. split; [exact Z2|]. split; [exact A|]. split; [|auto].
  destruct Z2 as [Z2 _]. destruct (Rle_lt_or_eq_dec _ _ Z2) as [L|L]; [left; exact (away_near _ _ _ A L)|now right].
Qed.
(** 2.5 is encoded as 2, the generated function gives 3. *)
Theorem C63_tie_refuted :
  ~ (forall c signed w v z, factory (NInt 1) (NInt 0) None false = Ok c -> scaled_to_raw c (VNum (NFlt v)) = Ok (NInt z) -> in_ctype signed w z ->
       c_encode c signed w true v = Some z).
Proof.
  intros H. specialize (H _ false 8%Z f2_5 2%Z eq_refl).
  assert (E : c_encode (CNum (CIdent false)) false 8 true f2_5 = Some 3%Z) by (vm_compute; reflexivity). rewrite E in H.
  specialize (H ltac:(vm_compute; reflexivity) ltac:(cbn; lia)). discriminate H.
Qed.

(** ** The range of physical values *)
Lemma away_mono x y r s : x <= y -> away x r -> away y s -> (r <= s)%Z.
Proof.
  intros L [A1 A2] [B1 B2]. destruct (Z_le_gt_dec r s) as [|G]; [assumption|]. exfalso. assert (GR : IZR s + 1 <= IZR r) by (rewrite <- plus_IZR; apply IZR_le; lia).
  apply Rabs_le_inv in A1, B1. assert (E1 : x = IZR r - / 2) by lra. assert (E2 : y = IZR s + / 2) by lra.
  assert (M1 : Rabs x < Rabs (IZR r)) by (apply A2; rewrite E1; replace (IZR r - / 2 - IZR r) with (- / 2) by ring; rewrite Rabs_Ropp, Rabs_pos_eq; lra).
  assert (M2 : Rabs y < Rabs (IZR s)) by (apply B2; rewrite E2; replace (IZR s + / 2 - IZR s) with (/ 2) by ring; rewrite Rabs_pos_eq; lra).
  assert (r = s + 1)%Z by (apply eq_IZR; rewrite plus_IZR; lra). subst r. rewrite plus_IZR in *.
  destruct (Z_le_gt_dec 0 s) as [P|P]; [apply IZR_le in P; rewrite (Rabs_pos_eq (IZR s)), (Rabs_pos_eq y) in M2; lra|].
  assert (N : (s <= -1)%Z) by lia. apply IZR_le in N. destruct (Z.eq_dec s (-1)) as [-> |N2].
  - rewrite E1 in M1. replace (-1 + 1 - / 2) with (- / 2) in M1 by ring. replace (-1 + 1) with 0 in M1 by ring. rewrite Rabs_R0 in M1. pose proof (Rabs_pos (- / 2)). lra.
  - assert (N3 : (s <= -2)%Z) by lia. apply IZR_le in N3. rewrite (Rabs_left1 x), (Rabs_left1 (IZR s + 1)) in M1 by lra. lra.
Qed.
Lemma leb_real a b : finite64 a -> finite64 b -> SFleb a b = true <-> fval a <= fval b.
Proof.
  intros [Va Fa] [Vb Fb]. destruct (to_bin a Va) as [x <-], (to_bin b Vb) as [y <-]. rewrite is_finite_SF_B2SF in Fa, Fb. rewrite !fval_bin.
  change (SFleb (B2SF x) (B2SF y)) with (Bleb x y). rewrite Bleb_correct by assumption. destruct (Rle_bool_spec (B2R x) (B2R y)); split; intros; try assumption; try reflexivity; try discriminate. lra.
Qed.
Lemma between_finite a v b : valid_binary 53 1024 v = true -> finite64 a -> finite64 b -> SFleb a v = true -> SFleb v b = true -> finite64 v.
Proof.
  intros V [_ Fa] [_ Fb] L1 L2. split; [exact V|]. destruct v as [s|s| |s m e]; try reflexivity.
  - destruct s; [destruct a as [t|t| |t m e]; try discriminate; destruct t; discriminate|destruct b as [t|t| |t m e]; try discriminate; destruct t; discriminate].
  - destruct a as [t|t| |t m e]; discriminate.
Qed.
(** is_in_phys_range tells whether a double lies between the given ends. *)
Theorem C63_in_phys_range mn mx v : is_double mn -> is_double mx -> valid_binary 53 1024 v = true ->
  c_is_in_phys_range (Some mn) (Some mx) v = Some true <-> finite64 v /\ num_real mn <= fval v <= num_real mx.
Proof.
  intros D1 D2 V. destruct (double_float mn D1) as (a & A1 & A2 & A3), (double_float mx D2) as (b & B1 & B2 & B3). unfold c_is_in_phys_range. rewrite A1, B1, <- A3, <- B3. split.
  - intros H. injection H as H. apply andb_true_iff in H. destruct H as [H1 H2]. pose proof (between_finite a v b V A2 B2 H1 H2) as F. split; [exact F|]. split; now apply leb_real.
  - intros (F & H1 & H2). apply leb_real in H1, H2; try assumption. now rewrite H1, H2.
Qed.
Lemma fsub_valid a b : valid_binary 53 1024 a = true -> valid_binary 53 1024 b = true -> valid_binary 53 1024 (fsub a b) = true.
Proof. intros Va Vb. destruct (to_bin a Va) as [x <-], (to_bin b Vb) as [y <-]. rewrite fsub_equiv. apply valid_binary_B2SF. Qed.
Lemma fdiv_valid a b : valid_binary 53 1024 a = true -> valid_binary 53 1024 b = true -> valid_binary 53 1024 (fdiv a b) = true.
Proof. intros Va Vb. destruct (to_bin a Va) as [x <-], (to_bin b Vb) as [y <-]. rewrite fdiv_equiv. apply valid_binary_B2SF. Qed.
Lemma quotient_valid c fs fo v g : num_finite (conv_scale c) -> num_finite (conv_offset c) -> c_literal (conv_scale c) = Some fs -> c_literal (conv_offset c) = Some fo ->
  finite64 v -> cf_eval (encode_expr c false) v = Some g -> valid_binary 53 1024 g = true.
Proof.
  intros F1 F2 LS LO [V _] E. destruct (literal_real _ _ F1 LS) as [[S1 _] _], (literal_real _ _ F2 LO) as [[O1 _] _]. unfold encode_expr in E. rewrite andb_false_r in E.
  destruct (py_eq (conv_offset c) (NInt 0)), (py_eq (conv_scale c) (NInt 1)); cbn [andb negb cf_eval] in E; try rewrite LS in E; try rewrite LO in E; injection E as <-; auto using fsub_valid, fdiv_valid.
Qed.
(** The quotient of an encoded value *)
Lemma encoded_quotient c signed w u v z fs fo : conv_is_float c = false -> num_finite (conv_scale c) -> num_finite (conv_offset c) -> c_literal (conv_scale c) = Some fs -> c_literal (conv_offset c) = Some fo -> fval fs <> 0 ->
  finite64 v -> c_encode c signed w u v = Some z ->
  let q := rnd (rnd (fval v - fval fo) / fval fs) in
  Rabs (rnd (fval v - fval fo)) < big /\ Rabs q < big /\ in_ctype signed w z /\ (if u then away q z else z = Ztrunc q).
Proof.
  intros NF F1 F2 LS LO NZ V E q.
  assert (Q : exists g, cf_eval (encode_expr c false) v = Some g /\ finite64 g).
  { unfold c_encode in E. destruct u.
    - rewrite round_expr in E by exact NF. cbn [cf_eval] in E. destruct (cf_eval (encode_expr c false) v) as [g|] eqn:EG; [|discriminate]. exists g. split; [reflexivity|].
      pose proof (quotient_valid c fs fo v g F1 F2 LS LO V EG) as VG.
      destruct g as [s|s| |s m e]; try (split; [exact VG|reflexivity]); discriminate E.
    - destruct (cf_eval (encode_expr c false) v) as [g|] eqn:EG; [|discriminate]. exists g. split; [reflexivity|]. apply (cast_int_finite signed w g z); [now apply (quotient_valid c fs fo v)|exact E]. }
  destruct Q as (g & G1 & G2). destruct (quotient_bounds c fs fo F1 F2 LS LO NZ v g V G1 G2) as [B1 B2]. split; [exact B1|]. split; [exact B2|].
  destruct (quotient_real c fs fo F1 F2 LS LO NZ v V B1 B2) as (g' & G3 & G4 & G5). unfold no_round in G3. rewrite G1 in G3. injection G3 as <-. fold q in G5. destruct u.
  - destruct (encode_rounds c signed w v g NF G1 G2) as (z' & A & H). apply H in E. destruct E as [-> T]. rewrite G5 in A. auto.
  - apply (encode_truncates c signed w v g G1 G2) in E. destruct E as [E T]. rewrite G5 in E. auto.
Qed.

(** A value in the range of physical values is encoded between its ends: if both ends can be encoded, the conversion does not overflow. *)
Theorem C63_phys_range c signed w u mn mx v lo hi : conv_is_float c = false -> is_double (conv_scale c) -> is_double (conv_offset c) -> num_real (conv_scale c) <> 0 ->
  is_double mn -> is_double mx -> valid_binary 53 1024 v = true -> to_float mn = Ok lo -> to_float mx = Ok hi ->
  c_is_in_phys_range (Some mn) (Some mx) v = Some true ->
  forall a b, c_encode c signed w u lo = Some a -> c_encode c signed w u hi = Some b ->
  exists z, c_encode c signed w u v = Some z /\ (if Rlt_dec 0 (num_real (conv_scale c)) then (a <= z <= b)%Z else (b <= z <= a)%Z).
Proof.
  intros NF DS DO NZ D1 D2 VB TL TH R a b EA EB. apply C63_in_phys_range in R; try assumption. destruct R as (FV & R1 & R2).
  destruct (double_literal _ DS) as (fs & LS & S1 & S2), (double_literal _ DO) as (fo & LO & O1 & O2). rewrite <- S2 in NZ.
  destruct (double_float mn D1) as (lo' & L1 & L2 & L3), (double_float mx D2) as (hi' & H1 & H2 & H3). rewrite TL in L1. apply Ok_inj in L1. subst lo'. rewrite TH in H1. apply Ok_inj in H1. subst hi'. rewrite <- L3 in R1. rewrite <- H3 in R2.
  destruct (encoded_quotient c signed w u lo a fs fo NF (proj1 DS) (proj1 DO) LS LO NZ L2 EA) as (A1 & A2 & A3 & A4).
  destruct (encoded_quotient c signed w u hi b fs fo NF (proj1 DS) (proj1 DO) LS LO NZ H2 EB) as (B1 & B2 & B3 & B4).
  assert (M : rnd (fval lo - fval fo) <= rnd (fval v - fval fo) <= rnd (fval hi - fval fo)) by (split; apply rnd_le; lra).
  assert (BD : Rabs (rnd (fval v - fval fo)) < big).
  { apply Rabs_def2 in A1, B1. apply Rabs_def1; lra. }
  set (dl := rnd (fval lo - fval fo)) in *. set (dv := rnd (fval v - fval fo)) in *. set (dh := rnd (fval hi - fval fo)) in *.
  assert (IC : forall x y z, in_ctype signed w x -> in_ctype signed w y -> (x <= z <= y)%Z -> in_ctype signed w z) by (unfold in_ctype; destruct signed; lia).
  assert (MONO : forall x y r s, x <= y -> (if u then away x r else r = Ztrunc x) -> (if u then away y s else s = Ztrunc y) -> (r <= s)%Z).
  { intros x y r s L X Y. destruct u; [exact (away_mono x y r s L X Y)|]. subst. now apply Ztrunc_le. }
  assert (FIN : Rabs (rnd (dv / fval fs)) < big -> exists z, (if u then away (rnd (dv / fval fs)) z else z = Ztrunc (rnd (dv / fval fs))) /\ (in_ctype signed w z -> c_encode c signed w u v = Some z)).
  { intros BQ. destruct (quotient_real c fs fo (proj1 DS) (proj1 DO) LS LO NZ v FV BD BQ) as (g & G1 & G2 & G3). fold dv in G3. destruct u.
    - destruct (encode_rounds c signed w v g NF G1 G2) as (z & A & H). exists z. rewrite G3 in A. split; [exact A|]. intros T. apply H. auto.
    - exists (Ztrunc (rnd (dv / fval fs))). split; [reflexivity|]. intros T. apply (encode_truncates c signed w v g G1 G2). rewrite G3. auto. }
  rewrite <- S2. destruct (Rlt_dec 0 (fval fs)) as [P|P].
  - assert (I : 0 < / fval fs) by now apply Rinv_0_lt_compat.
    assert (Q : rnd (dl / fval fs) <= rnd (dv / fval fs) <= rnd (dh / fval fs)) by (split; apply rnd_le; apply Rmult_le_compat_r; lra).
    destruct FIN as (z & Z1 & Z2); [apply Rabs_def2 in A2, B2; apply Rabs_def1; lra|]. exists z.
    assert (a <= z <= b)%Z as Z3 by (split; [apply (MONO _ _ _ _ (proj1 Q) A4 Z1)|apply (MONO _ _ _ _ (proj2 Q) Z1 B4)]).
    split; [apply Z2; exact (IC a b z A3 B3 Z3)|exact Z3].
  - assert (I : / fval fs < 0) by (apply Rinv_lt_0_compat; lra).
    assert (Q : rnd (dh / fval fs) <= rnd (dv / fval fs) <= rnd (dl / fval fs)) by (split; apply rnd_le; unfold Rdiv; rewrite !(Rmult_comm _ (/ fval fs)); apply Rmult_le_compat_neg_l; lra).
    destruct FIN as (z & Z1 & Z2); [apply Rabs_def2 in A2, B2; apply Rabs_def1; lra|]. exists z.
    assert (b <= z <= a)%Z as Z3 by (split; [apply (MONO _ _ _ _ (proj1 Q) B4 Z1)|apply (MONO _ _ _ _ (proj2 Q) Z1 A4)]).
    split; [apply Z2; exact (IC b a z B3 A3 Z3)|exact Z3].
Qed.

Lemma tenth_double : is_double (NFlt f0_1) /\ is_double (NInt (-40)) /\ is_double (NInt 215) /\ is_double (NInt 1).
Proof.
  assert (I : forall z, (Z.abs z <= 2 ^ 53)%Z -> is_double (NInt z)).
  { intros z H. split; [exact I|]. destruct (float_of_Z_real z) as (f & _ & F & V); [|exists f; split; [exact F|]; cbn [num_real]; rewrite V; now apply rnd_int].
    rewrite rnd_int by exact H. rewrite <- abs_IZR. apply Rle_lt_trans with (IZR (2 ^ 53)); [now apply IZR_le|]. change (IZR (2 ^ 53)) with (bpow radix2 53). unfold big. apply bpow_lt. lia. }
  split; [|repeat split; apply I; lia]. assert (F : finite64 f0_1) by (apply finite_by; vm_compute; reflexivity). split; [exact F|]. exists f0_1. auto.
Qed.
(** A temperature of 0.1 degrees per bit from -40 to 215 degrees in 16 bits *)
Example C63_hypotheses : factory (NFlt f0_1) (NInt (-40)) None false = Ok tenth_conv /\ is_double (NFlt f0_1) /\ is_double (NInt (-40)) /\
  sane_linear (conv_scale tenth_conv) (conv_offset tenth_conv) /\ in_ctype false 16 634 /\ moderate (NFlt f23_4) /\
  (exists f, c_decode tenth_conv 634 = Some f /\ c_encode tenth_conv false 16 true f = Some 634%Z) /\
  (exists lo hi, to_float (NInt (-40)) = Ok lo /\ to_float (NInt 215) = Ok hi /\ c_encode tenth_conv false 16 true lo = Some 0%Z /\ c_encode tenth_conv false 16 true hi = Some 2550%Z) /\
  c_is_in_phys_range (Some (NInt (-40))) (Some (NInt 215)) f23_4 = Some true /\ c_encode tenth_conv false 16 true f23_4 = Some 634%Z.
Proof.
  destruct tenth_double as (T1 & T2 & _). split; [vm_compute; reflexivity|]. split; [exact T1|]. split; [exact T2|]. split; [exact tenth_sane|]. split; [cbn; lia|].
  split.
  { assert (W : num_real (NFlt f23_4) = 6586514455029350 * / 281474976710656) by reflexivity.
    assert (P2 : 64 <= bpow radix2 400) by (change 64 with (bpow radix2 6); apply bpow_le; lia).
    split; [apply finite_by; vm_compute; reflexivity|]. rewrite W, Rabs_pos_eq by lra. lra. }
  split; [exists (match c_decode tenth_conv 634 with Some f => f | None => f0_1 end); split; vm_compute; reflexivity|].
  split; [exists (match to_float (NInt (-40)) with Ok f => f | _ => f0_1 end), (match to_float (NInt 215) with Ok f => f | _ => f0_1 end); split; [vm_compute; reflexivity|]; split; [vm_compute; reflexivity|]; split; vm_compute; reflexivity|].
  split; vm_compute; reflexivity.
Qed.

(** ** Float signals *)
Lemma float_params scale offset ch c : num_finite scale -> num_finite offset -> factory scale offset ch true = Ok c ->
  exists n, (n = CIdent true /\ num_real scale = 1 /\ num_real offset = 0 \/ n = CLin scale offset true) /\ conv_is_float c = true /\
    (forall v, numeric_scaled_to_raw c v = nc_numeric_scaled_to_raw n v) /\
    (forall r, raw_to_scaled c r false = let* v := nc_raw_to_scaled n r in Ok (VNum v)) /\
    num_finite (conv_scale c) /\ num_finite (conv_offset c) /\ num_real (conv_scale c) = num_real scale /\ num_real (conv_offset c) = num_real offset.
Proof.
  intros FS FO H. unfold factory in H. destruct (num_factory scale offset true) as [n|] eqn:N; [|discriminate]. cbn [bind] in H.
  assert (P : (n = CIdent true /\ num_real scale = 1 /\ num_real offset = 0 \/ n = CLin scale offset true) /\ nc_is_float n = true /\ num_finite (nc_scale n) /\ num_finite (nc_offset n) /\ num_real (nc_scale n) = num_real scale /\ num_real (nc_offset n) = num_real offset).
  { unfold num_factory in N. destruct (py_eq scale (NInt 1) && py_eq offset (NInt 0)) eqn:E1.
    - apply Ok_inj in N. subst n. apply andb_true_iff in E1. destruct E1 as [E1 E2]. apply eq_real in E1, E2. cbn [nc_is_float nc_scale nc_offset num_finite]. rewrite E1, E2. repeat split; auto.
    - rewrite andb_false_r in N. apply Ok_inj in N. subst n. cbn [nc_is_float nc_scale nc_offset]. auto 10. }
  destruct P as (P & F & P1 & P2 & P3 & P4). exists n. destruct ch as [ch|]; apply Ok_inj in H; subst c; cbn [conv_is_float conv_scale conv_offset]; auto 10.
Qed.
(** For signals of type double both functions compute what encode() and decode() compute. *)
Theorem C63_double_signals scale offset ch c u v : is_double scale -> is_double offset -> factory scale offset ch true = Ok c ->
  bpow radix2 (-400) <= Rabs (num_real scale) <= bpow radix2 400 -> moderate offset -> moderate (NFlt v) ->
  (exists x f, scaled_to_raw c (VNum (NFlt v)) = Ok x /\ cf_eval (encode_expr c u) v = Some f /\ finite64 f /\ fval f = num_real x) /\
  (exists x f, raw_to_scaled c (NFlt v) false = Ok (VNum x) /\ c_decode_float c v = Some f /\ finite64 f /\ fval f = num_real x).
Proof.
  intros DS DO H [B1 B2] [MO1 MO2] [MV1 MV2]. cbn [num_finite num_real] in MV1, MV2.
  destruct (float_params scale offset ch c (proj1 DS) (proj1 DO) H) as (n & P & NF & SR & RS & F1 & F2 & V1 & V2).
  destruct (double_literal (conv_scale c)) as (fs & LS & S1 & S2); [split; [exact F1|]; rewrite V1; apply DS|].
  destruct (double_literal (conv_offset c)) as (fo & LO & O1 & O2); [split; [exact F2|]; rewrite V2; apply DO|]. rewrite V1 in S2. rewrite V2 in O2.
  assert (X : 1 <= bpow radix2 400) by (change 1 with (bpow radix2 0); apply bpow_le; lia).
  assert (X4 : 4 * bpow radix2 400 <= bpow radix2 600) by (change 4 with (bpow radix2 2); rewrite <- bpow_plus; apply bpow_le; lia).
  assert (X6 : bpow radix2 600 <= bpow radix2 1000) by (apply bpow_le; lia).
  assert (X8 : bpow radix2 400 * bpow radix2 400 <= bpow radix2 800) by (rewrite <- bpow_plus; apply bpow_le; lia).
  assert (X9 : 8 * bpow radix2 800 <= bpow radix2 1000) by (change 8 with (bpow radix2 3); rewrite <- bpow_plus; apply bpow_le; lia).
  assert (X7 : bpow radix2 400 <= bpow radix2 800) by (apply bpow_le; lia).
  set (d := rnd (fval v - num_real offset)) in *.
  assert (SB : Rabs (fval v - num_real offset) <= 2 * bpow radix2 400).
  { eapply Rle_trans; [apply (Rabs_triang (fval v) (- num_real offset))|]. rewrite Rabs_Ropp. lra. }
  assert (DB : Rabs d <= 4 * bpow radix2 400).
  { pose proof (rnd_error (fval v - num_real offset)) as ER. fold d in ER. pose proof eta_tiny. apply Rabs_near in ER. unfold eps in *. lra. }
  assert (SP : 0 < Rabs (num_real scale)) by (eapply Rlt_le_trans; [apply bpow_gt_0|exact B1]).
  assert (NZ : num_real scale <> 0) by (intros Q; rewrite Q, Rabs_R0 in SP; lra).
  assert (QB : Rabs (d / num_real scale) <= bpow radix2 1000).
  { unfold Rdiv. rewrite Rabs_mult, Rabs_inv. apply Rle_trans with (bpow radix2 600 * bpow radix2 400); [|rewrite <- bpow_plus; apply bpow_le; lia].
    apply Rmult_le_compat; [apply Rabs_pos|left; now apply Rinv_0_lt_compat|lra|].
    rewrite <- (Rinv_inv (bpow radix2 400)). apply Rinv_le; [apply Rinv_0_lt_compat, bpow_gt_0|]. rewrite <- bpow_opp. exact B1. }
  assert (PB : Rabs (fval v * num_real scale) <= bpow radix2 800).
  { eapply Rle_trans; [apply Rabs_mult_le; [exact MV2|exact B2]|exact X8]. }
  assert (RB : Rabs (rnd (fval v * num_real scale)) <= 2 * bpow radix2 800).
  { pose proof (rnd_error (fval v * num_real scale)) as ER. pose proof eta_tiny. apply Rabs_near in ER. assert (1 <= bpow radix2 800) by (change 1 with (bpow radix2 0); apply bpow_le; lia). unfold eps in *. lra. }
  assert (TB : Rabs (rnd (fval v * num_real scale) + num_real offset) <= bpow radix2 1000).
  { eapply Rle_trans; [apply Rabs_triang|]. lra. }
  destruct (double_float offset DO) as (go & E1 & E2 & E3). destruct (double_float scale DS) as (gs & E4 & E5 & E6). split.
  - assert (EX : encode_expr c u = encode_expr c false) by (unfold encode_expr; rewrite NF; reflexivity). rewrite EX.
    destruct (quotient_real c fs fo F1 F2 LS LO ltac:(now rewrite S2) v MV1) as (g & G1 & G2 & G3); [rewrite O2; apply rnd_bounded; lra|rewrite O2, S2; fold d; now apply rnd_bounded|].
    rewrite O2, S2 in G3. fold d in G3. cbn [scaled_to_raw]. rewrite SR.
    assert (PY : exists x, nc_numeric_scaled_to_raw n (NFlt v) = Ok x /\ num_real x = rnd (d / num_real scale)).
    { destruct P as [(-> & P1 & P2)| ->]; cbn [nc_numeric_scaled_to_raw].
      - exists (NFlt v). split; [reflexivity|]. cbn [num_real]. unfold d. rewrite P1, P2, Rminus_0_r. unfold Rdiv. rewrite Rinv_1, Rmult_1_r, rnd_rnd. symmetry. now apply rnd_fval.
      - destruct (py_addsub_real false (NFlt v) offset v go) as (y & A1 & A2 & A3); try assumption; try exact I; try reflexivity; [rewrite E3; lra|]. rewrite E3 in A3. fold d in A3.
        cbv beta iota in A1. rewrite A1. cbn [bind]. unfold py_truediv. rewrite E4. cbn [to_float bind]. rewrite (fval_zero gs E5) by (rewrite E6; exact NZ). cbn [bind].
        destruct (fdiv_real y gs A2 E5) as [M1 M2]; [rewrite E6; exact NZ|rewrite A3, E6; now apply rnd_bounded|]. rewrite A3, E6 in M2. exists (NFlt (fdiv y gs)). auto. }
    destruct PY as (x & X1 & X2). exists x, g. rewrite X2. auto.
  - destruct (decode_real c fs fo F1 F2 LS LO v MV1) as (f & D1 & D2 & D3); [rewrite S2; apply rnd_bounded; lra|rewrite S2, O2; now apply rnd_bounded|]. rewrite S2, O2 in D3. rewrite RS. unfold c_decode_float.
    assert (PY : exists x, nc_raw_to_scaled n (NFlt v) = Ok x /\ num_real x = rnd (rnd (fval v * num_real scale) + num_real offset)).
    { destruct P as [(-> & P1 & P2)| ->]; cbn [nc_raw_to_scaled].
      - exists (NFlt v). split; [reflexivity|]. cbn [num_real]. rewrite P1, P2, Rmult_1_r, Rplus_0_r, rnd_rnd. symmetry. now apply rnd_fval.
      - destruct (fmul_real v gs MV1 E5) as [M1 M2]; [rewrite E6; apply rnd_bounded; lra|]. rewrite E6 in M2.
        assert (MU : py_mul (NFlt v) scale = Ok (NFlt (fmul v gs))) by (unfold py_mul, py_arith; rewrite E4; destruct scale; reflexivity). rewrite MU. cbn [bind].
        destruct (py_addsub_real true (NFlt (fmul v gs)) offset (fmul v gs) go) as (y & A1 & A2 & A3); try assumption; try exact I; try reflexivity; [rewrite M2, E3; exact TB|].
        exists (NFlt y). split; [exact A1|]. cbn [num_real]. rewrite A3, M2, E3. reflexivity. }
    destruct PY as (x & X1 & X2). rewrite X1. exists x, f. cbn [bind]. rewrite X2. auto.
Qed.

(** ** C64: init *)
(** The members of the structure after init: the raw initial value of every signal whose physical initial value counts as true, and zero for all others. *)
Lemma init_other sigs : forall mem mem', c_init sigs mem = Ok mem' -> forall n, ~ In n (map (fun p => member (fst p)) sigs) -> mem' n = mem n.
Proof.
  induction sigs as [|[s r] sigs IH]; intros mem mem' H n N; cbn [c_init] in H; [apply Ok_inj in H; now subst|].
  apply bind_ok in H. destruct H as (i & _ & H). rewrite (IH _ _ H n) by (intros I; apply N; right; exact I).
  destruct i as [v|], r as [z|]; try reflexivity. destruct (truthy v); [|reflexivity]. destruct (String.eqb_spec n (member s)) as [-> |]; [|reflexivity]. exfalso. apply N. now left.
Qed.
Lemma truthy_spec v : truthy v = true <-> v <> VStr "" /\ (forall n, v = VNum n -> py_eq n (NInt 0) = false).
Proof.
  destruct v as [n|t|z t]; cbn [truthy].
  - rewrite negb_true_iff. split; [intros H; split; [discriminate|intros m [= <-]; exact H]|intros [_ H]; now apply H].
  - rewrite negb_true_iff, String.eqb_neq. split; [intros H; split; congruence|intros [H _] ->; now apply H].
  - split; [intros _; split; discriminate|reflexivity].
Qed.
(** What init does: every member holds the raw initial value if the physical initial value counts as true, and zero otherwise. *)
Theorem C64_init sigs mem : NoDup (map (fun p => member (fst p)) sigs) -> c_init_struct sigs = Ok mem ->
  (forall s r, In (s, Some r) sigs -> exists v, raw_to_scaled (s_conv s) (NInt r) true = Ok v /\
     (v <> VStr "" -> (forall n, v = VNum n -> py_eq n (NInt 0) = false) -> mem (member s) = r) /\
     (v = VStr "" \/ (exists n, v = VNum n /\ py_eq n (NInt 0) = true) -> mem (member s) = 0%Z)) /\
  (forall s, In (s, None) sigs -> mem (member s) = 0%Z) /\
  (forall n, ~ In n (map (fun p => member (fst p)) sigs) -> mem n = 0%Z).
Proof.
  unfold c_init_struct. intros ND H.
  assert (G : forall mem0, c_init sigs mem0 = Ok mem ->
    forall s r, In (s, r) sigs -> exists i, initial_of s r = Ok i /\ mem (member s) = match i, r with Some v, Some z => if truthy v then z else mem0 (member s) | _, _ => mem0 (member s) end).
  { clear H. induction sigs as [|[s0 r0] sigs IH]; intros mem0 H s r I; [destruct I|]. cbn [map fst] in ND. inversion ND as [|? ? N1 N2]; subst. cbn [c_init] in H.
    apply bind_ok in H. destruct H as (i & I0 & H). destruct I as [[= <- <-]|I].
    - exists i. split; [exact I0|]. rewrite (init_other _ _ _ H (member s0) N1). destruct i as [v|], r0 as [z|]; try reflexivity. destruct (truthy v); [|reflexivity]. now rewrite String.eqb_refl.
    - destruct (IH N2 _ H s r I) as (j & J1 & J2). exists j. split; [exact J1|]. rewrite J2.
      assert (NE : member s <> member s0) by (intros Q; apply N1; rewrite <- Q; apply (in_map (fun p => member (fst p)) _ _ I)).
      assert (K : (match i, r0 with Some v, Some z => if truthy v then fun n => if String.eqb n (member s0) then z else mem0 n else mem0 | _, _ => mem0 end) (member s) = mem0 (member s)).
      { destruct i as [v|], r0 as [z|]; try reflexivity. destruct (truthy v); [|reflexivity]. destruct (String.eqb_spec (member s) (member s0)); [contradiction|reflexivity]. }
      now rewrite K. }
  specialize (G _ H). split; [|split].
  - intros s r I. destruct (G s (Some r) I) as (i & I1 & I2). cbn [initial_of] in I1. apply bind_ok in I1. destruct I1 as (v & V1 & V2). apply Ok_inj in V2. subst i. exists v. split; [exact V1|]. rewrite I2. split.
    + intros A B. now rewrite (proj2 (truthy_spec v) (conj A B)).
    + intros [-> |(n & -> & E)]; [reflexivity|]. cbn [truthy]. now rewrite E.
  - intros s I. destruct (G s None I) as (i & I1 & I2). rewrite I2. destruct i; reflexivity.
  - intros n N. now rewrite (init_other _ _ _ H n N).
Qed.
(** Where the physical zero is the raw zero nothing is lost. *)
Theorem C64_init_offset_free sigs mem s r scale offset : NoDup (map (fun p => member (fst p)) sigs) -> c_init_struct sigs = Ok mem -> In (s, Some r) sigs ->
  factory scale offset None false = Ok (s_conv s) -> sane_linear scale offset -> num_real offset = 0 -> (Z.abs r <= 2 ^ 49)%Z -> mem (member s) = r.
Proof.
  intros ND H I F SL OZ B. destruct (C64_init sigs mem ND H) as (G & _). destruct (G s r I) as (v & V1 & V2 & V3).
  destruct (C17_scaled_value scale offset (s_conv s) r true SL F B) as (x & X1 & X2). rewrite X1 in V1. apply Ok_inj in V1. subst v.
  destruct (py_eq x (NInt 0)) eqn:E; [|apply V2; [discriminate|intros n [= <-]; exact E]].
  destruct (Z.eq_dec r 0) as [-> |NZ]; [apply V3; right; exists x; auto|]. exfalso.
  apply eq_real in E. cbn [num_real] in E. rewrite E, OZ, Rplus_0_r, Rminus_0_l, Rabs_Ropp, Rabs_R0, Rplus_0_r, Rabs_mult in X2.
  assert (R1 : 1 <= Rabs (IZR r)) by (rewrite <- abs_IZR; apply (IZR_le 1); lia).
  assert (SP : 0 < Rabs (num_real scale)) by (destruct SL as (_ & _ & [L _] & _); eapply Rlt_le_trans; [apply bpow_gt_0|exact L]).
  assert (EP : bpow radix2 (-51) <= / 4) by (change (/ 4) with (bpow radix2 (-2)); apply bpow_le; lia).
  set (a := Rabs (IZR r)) in *. set (b := Rabs (num_real scale)) in *. assert (0 < bpow radix2 (-51)) by apply bpow_gt_0. assert (b <= a * b) by nra. nra.
Qed.
(** The claim in general fails: a temperature with offset -40 that starts at 0 degrees has the raw initial value 40, and init leaves the member 0, which reads as -40 degrees. *)
Definition temperature : signal := mkSignal "Temperature" 0 8 false false (CNum (CLinInt 1 (-40))) None None false None None.
Theorem C64_init_refuted : exists s r mem, c_init_struct [(s, Some r)] = Ok mem /\ (0 <= r < 2 ^ s_length s)%Z /\ mem (member s) <> r /\
  raw_to_scaled (s_conv s) (NInt r) true = Ok (VNum (NInt 0)) /\ raw_to_scaled (s_conv s) (NInt (mem (member s))) true = Ok (VNum (NInt (-40))).
Proof. exists temperature, 40%Z. eexists. split; [reflexivity|]. split; [cbn; lia|]. split; [vm_compute; discriminate|]. split; vm_compute; reflexivity. Qed.
Definition speed : signal := mkSignal "Speed" 8 16 false false (CNum (CLin (NFlt f0_1) (NInt 0) false)) None None false None None.
Definition doors : signal := mkSignal "Doors" 24 2 false false (CNum (CIdent false)) None None false None None.
Lemma speed_sane : sane_linear (NFlt f0_1) (NInt 0).
Proof.
  destruct tenth_sane as (A & _ & B & _). cbn [conv_scale conv_offset tenth_conv nc_scale nc_offset] in *. repeat split; try exact A; try apply B. cbn [num_real]. rewrite Rabs_R0. apply Rmult_le_pos; [apply bpow_ge_0|apply Rabs_pos].
Qed.
Example C64_hypotheses : NoDup (map (fun p => member (fst p)) [(temperature, Some 65%Z); (speed, Some 3%Z); (doors, None)]) /\
  (exists mem, c_init_struct [(temperature, Some 65%Z); (speed, Some 3%Z); (doors, None)] = Ok mem /\ mem (member temperature) = 65%Z /\ mem (member speed) = 3%Z /\ mem (member doors) = 0%Z) /\
  factory (NFlt f0_1) (NInt 0) None false = Ok (s_conv speed) /\ sane_linear (NFlt f0_1) (NInt 0).
Proof.
  split; [repeat constructor; cbn; intuition discriminate|]. split; [eexists; split; [reflexivity|]; repeat split; vm_compute; reflexivity|]. split; [vm_compute; reflexivity|exact speed_sane].
Qed.
Example C63_double_hypotheses : factory (NFlt f0_1) (NInt (-40)) None true = Ok (CNum (CLin (NFlt f0_1) (NInt (-40)) true)) /\ is_double (NFlt f0_1) /\ is_double (NInt (-40)) /\
  bpow radix2 (-400) <= Rabs (num_real (NFlt f0_1)) <= bpow radix2 400 /\ moderate (NInt (-40)) /\ moderate (NFlt f23_4).
Proof.
  destruct C63_hypotheses as (_ & D1 & D2 & _ & _ & M & _). assert (V : num_real (NFlt f0_1) = 7205759403792794 * / 72057594037927936) by reflexivity.
  assert (P1 : bpow radix2 (-400) <= / 16) by (change (/ 16) with (bpow radix2 (-4)); apply bpow_le; lia).
  assert (P2 : 64 <= bpow radix2 400) by (change 64 with (bpow radix2 6); apply bpow_le; lia).
  split; [vm_compute; reflexivity|]. split; [exact D1|]. split; [exact D2|]. split; [rewrite V, Rabs_pos_eq by lra; lra|]. split; [|exact M].
  split; [exact I|]. cbn [num_real]. rewrite Rabs_left by lra. lra.
Qed.
