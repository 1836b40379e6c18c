(** Prop_Nearest: C59, the raw value of a physical value is the nearest one.

    Stated with real numbers (Coq.Reals, through Flocq). *)
From Coq Require Import Reals Lra Psatz Floats.SpecFloat.
From Flocq Require Import Core BinarySingleNaN Plus_error.
From Verif Require Import Base PyNum Conversion NodeProofs FloatBits FloatReal ConvReal Prop_Conv.
Open Scope R_scope.
Local Instance Hprec : FLX.Prec_gt_0 53 := eq_refl _.
Local Instance Hmax : Prec_lt_emax 53 1024 := eq_refl _.

(** ** The nearest integer, the even one of two *)
Definition nearest (x : R) (r : Z) : Prop := Rabs (x - IZR r) <= / 2 /\ (Rabs (x - IZR r) = / 2 -> Z.even r = true).

Lemma nearest_opp x r : nearest x r -> nearest (- x) (- r).
Proof.
  unfold nearest. rewrite opp_IZR. replace (- x - - IZR r) with (- (x - IZR r)) by ring. rewrite Rabs_Ropp, Z.even_opp. auto.
Qed.
Lemma nearest_int r : nearest (IZR r) r.
Proof. unfold nearest. rewrite Rminus_diag_eq, Rabs_R0 by reflexivity. split; lra. Qed.
Lemma nearest_div m d : (0 < d)%Z -> nearest (IZR m / IZR d) (div_half_even m d).
Proof.
  intros Hd. unfold div_half_even. pose proof (Z.div_mod m d ltac:(lia)) as E. pose proof (Z.mod_pos_bound m d Hd) as B.
  set (q := (m / d)%Z) in *. set (r := (m mod d)%Z) in *.
  assert (D : 0 < IZR d) by (apply IZR_lt; lia).
  assert (V : IZR m / IZR d = IZR q + IZR r / IZR d) by (rewrite E, plus_IZR, mult_IZR; field; lra).
  assert (V0 : 0 <= IZR r / IZR d) by (apply Rmult_le_pos; [apply IZR_le; lia|left; now apply Rinv_0_lt_compat]).
  assert (L : forall a b, (a <= b)%Z -> IZR a / IZR d <= IZR b / IZR d).
  { intros a b H. apply Rmult_le_compat_r; [left; now apply Rinv_0_lt_compat|now apply IZR_le]. }
  assert (L2 : forall a b, (a < b)%Z -> IZR a / IZR d < IZR b / IZR d).
  { intros a b H. apply Rmult_lt_compat_r; [now apply Rinv_0_lt_compat|now apply IZR_lt]. }
  assert (X1 : IZR d / IZR d = 1) by (field; lra).
  assert (X2 : IZR (2 * r) / IZR d = 2 * (IZR r / IZR d)) by (rewrite mult_IZR; field; lra).
  assert (V1 : IZR r / IZR d < 1) by (rewrite <- X1; apply L2; lia).
  rewrite V. set (t := IZR r / IZR d) in *. unfold nearest.
  destruct (Z.ltb_spec (2 * r) d) as [H|H]; [|destruct (Z.ltb_spec d (2 * r)) as [H'|H']; [|destruct (Z.even q) eqn:EV]].
  - apply L2 in H. rewrite X1, X2 in H. replace (IZR q + t - IZR q) with t by ring. rewrite Rabs_pos_eq by lra. split; lra.
  - apply L2 in H'. rewrite X1, X2 in H'. rewrite plus_IZR. replace (IZR q + t - (IZR q + 1)) with (- (1 - t)) by ring. rewrite Rabs_Ropp, Rabs_pos_eq by lra. split; lra.
  - assert (d = (2 * r)%Z) as EQ by lia. rewrite EQ in X1 at 1. rewrite X2 in X1. replace (IZR q + t - IZR q) with t by ring. rewrite Rabs_pos_eq by lra. split; [lra|auto].
  - assert (d = (2 * r)%Z) as EQ by lia. rewrite EQ in X1 at 1. rewrite X2 in X1. rewrite plus_IZR. replace (IZR q + t - (IZR q + 1)) with (- (1 - t)) by ring. rewrite Rabs_Ropp, Rabs_pos_eq by lra. split; [lra|].
    intros _. rewrite Z.even_add, EV. reflexivity.
Qed.
Lemma pos_value m e : (e < 0)%Z -> F2R (Float radix2 (Z.pos m) e) = IZR (Z.pos m) / IZR (2 ^ (- e)).
Proof.
  intros H. unfold F2R. cbn [Fnum Fexp]. unfold Rdiv. f_equal. change (2 ^ (- e))%Z with (Zpower radix2 (- e)). rewrite IZR_Zpower by lia.
  rewrite <- bpow_opp. f_equal. lia.
Qed.
Lemma mag_round_nearest m e : nearest (F2R (Float radix2 (Z.pos m) e)) (mag_round m e).
Proof.
  unfold mag_round. destruct (Z.leb_spec 0 e) as [H|H].
  - unfold F2R. cbn [Fnum Fexp]. rewrite <- IZR_Zpower, <- mult_IZR by assumption. apply nearest_int.
  - rewrite pos_value by assumption. apply nearest_div. apply Z.pow_pos_nonneg; lia.
Qed.
Lemma py_round_nearest f : is_finite_SF f = true -> exists r, py_round (NFlt f) = Ok r /\ nearest (fval f) r.
Proof.
  destruct f as [s|s| |s m e]; intros F; try discriminate F; cbn [py_round].
  - exists 0%Z. split; [reflexivity|]. apply (nearest_int 0).
  - eexists. split; [reflexivity|]. unfold fval. cbn [SF2R]. destruct s; cbn [cond_Zopp signed_Z].
    + change (Z.neg m) with (- Z.pos m)%Z. rewrite F2R_Zopp. apply nearest_opp, mag_round_nearest.
    + apply mag_round_nearest.
Qed.

(** ** Division of ints *)
Lemma int_div_real a b : (b <> 0)%Z -> Rabs (rnd (IZR a / IZR b)) < big ->
  exists f, int_truediv a b = Ok f /\ finite64 f /\ fval f = rnd (IZR a / IZR b).
Proof.
  intros NB HB. unfold int_truediv. rewrite (proj2 (Z.eqb_neq b 0) NB). destruct (Z.eqb_spec a 0) as [->|NA].
  - exists (S754_zero false). split; [reflexivity|]. split; [split; reflexivity|]. unfold Rdiv. rewrite Rmult_0_l. unfold rnd, fval. rewrite round_0 by typeclasses eauto. reflexivity.
  - assert (P : exists pa pb, Z.abs a = Z.pos pa /\ Z.abs b = Z.pos pb /\ a = cond_Zopp (a <? 0)%Z (Z.pos pa) /\ b = cond_Zopp (b <? 0)%Z (Z.pos pb)).
    { destruct a as [|pa|pa], b as [|pb|pb]; try lia; exists pa, pb; repeat split. }
    destruct P as (pa & pb & EA & EB & VA & VB). rewrite EA, EB.
    pose proof (Bdiv_correct_aux 53 1024 _ _ mode_NE (a <? 0)%Z pa 0 (b <? 0)%Z pb 0) as C. cbv zeta in C. rewrite <- VA, <- VB, !F2R_int in C.
    unfold prec, emax. destruct (SFdiv_core_binary 53 1024 (Z.pos pa) 0 (Z.pos pb) 0) as [[q e] l] eqn:EQ. rewrite <- binary_round_aux_equiv in C.
    set (f := SpecFloat.binary_round_aux 53 1024 (xorb (a <? 0)%Z (b <? 0)%Z) q e l) in *.
    destruct C as [C1 C2]. cbn [round_mode] in C2. unfold rnd, big in HB. rewrite Rlt_bool_true in C2 by exact HB. destruct C2 as (C2 & C3 & _).
    exists f. split; [|split; [split; assumption|exact C2]]. destruct f; try discriminate C3; reflexivity.
Qed.

(** ** Halves are floats *)
Lemma rnd_half z : (Z.abs z <= 2 ^ 53)%Z -> rnd (IZR z / 2) = IZR z / 2.
Proof.
  intros H. unfold rnd. apply round_generic; [typeclasses eauto|]. change (SpecFloat.fexp 53 1024) with (FLT_exp (-1074) 53).
  destruct (Z.eq_dec (Z.abs z) (2 ^ 53)) as [E|N].
  - assert (V : IZR z / 2 = IZR (z / 2)).
    { assert (z = 2 * (z / 2))%Z as Q by (destruct (Z.abs_spec z) as [[_ A]|[_ A]]; rewrite A in E; [subst z; reflexivity|replace z with (- 2 ^ 53)%Z by lia; reflexivity]).
      rewrite Q at 1. rewrite mult_IZR. field. }
    rewrite V. apply generic_format_FLT, (FLT_spec radix2 (-1074) 53 _ (Float radix2 (z / 2 / 2 ^ 40)%Z 40)).
    + unfold F2R. cbn [Fnum Fexp]. change (bpow radix2 40) with (IZR (2 ^ 40)). rewrite <- mult_IZR. f_equal.
      destruct (Z.abs_spec z) as [[_ A]|[_ A]]; rewrite A in E; [subst z; reflexivity|replace z with (- 2 ^ 53)%Z by lia; reflexivity].
    + cbn [Fnum]. destruct (Z.abs_spec z) as [[_ A]|[_ A]]; rewrite A in E; [subst z; reflexivity|replace z with (- 2 ^ 53)%Z by lia; reflexivity].
    + cbn. lia.
  - apply generic_format_FLT, (FLT_spec radix2 (-1074) 53 _ (Float radix2 z (-1))).
    + unfold F2R. cbn [Fnum Fexp]. change (bpow radix2 (-1)) with (/ 2). reflexivity.
    + cbn [Fnum]. change (radix2 ^ 53)%Z with (2 ^ 53)%Z. lia.
    + cbn. lia.
Qed.
Lemma rnd_le x y : x <= y -> rnd x <= rnd y.
Proof. intros H. unfold rnd. apply round_le; [typeclasses eauto|typeclasses eauto|exact H]. Qed.

(** A quotient of small ints does not become a half by rounding. *)
Lemma quotient_away a b z : (0 < b)%Z -> (b <= 2 ^ 900)%Z -> (Z.abs a <= 2 ^ 51)%Z -> rnd (IZR a / IZR b) = IZR z / 2 -> IZR a / IZR b = IZR z / 2.
Proof.
  intros B0 B1 A R. assert (B : 0 < IZR b) by now apply IZR_lt.
  destruct (Z.eq_dec (2 * a) (z * b)) as [E|N].
  - apply (Rmult_eq_reg_r (2 * IZR b)); [|lra]. transitivity (IZR (2 * a)); [rewrite mult_IZR; field; lra|]. rewrite E, mult_IZR. field.
  - exfalso. pose proof (rnd_error (IZR a / IZR b)) as ER. rewrite R in ER.
    assert (D : / (2 * IZR b) <= Rabs (IZR z / 2 - IZR a / IZR b)).
    { replace (IZR z / 2 - IZR a / IZR b) with (IZR (z * b - 2 * a) * / (2 * IZR b)) by (rewrite minus_IZR, !mult_IZR; field; lra).
      rewrite Rabs_mult, <- abs_IZR, (Rabs_pos_eq (/ (2 * IZR b))) by (left; apply Rinv_0_lt_compat; lra).
      rewrite <- (Rmult_1_l (/ (2 * IZR b))) at 1. apply Rmult_le_compat_r; [left; apply Rinv_0_lt_compat; lra|]. apply IZR_le. lia. }
    assert (Q : Rabs (IZR a / IZR b) * eps <= / (4 * IZR b)).
    { unfold Rdiv. rewrite Rabs_mult, <- abs_IZR, (Rabs_pos_eq (/ IZR b)) by (left; apply Rinv_0_lt_compat; lra).
      apply IZR_le in A. replace (IZR (2 ^ 51)) with (2251799813685248) in A by reflexivity. unfold eps.
      replace (/ (4 * IZR b)) with (2251799813685248 * / IZR b * / 9007199254740992) by (field; lra).
      apply Rmult_le_compat_r; [lra|]. apply Rmult_le_compat_r; [left; apply Rinv_0_lt_compat; lra|exact A]. }
    assert (T : eta < / (4 * IZR b)).
    { apply Rlt_le_trans with (bpow radix2 (-902)); [apply bpow_lt; lia|]. change (-902)%Z with (- (902))%Z. rewrite bpow_opp. apply Rinv_le; [lra|].
      apply IZR_le in B1. change (IZR (2 ^ 900)) with (bpow radix2 900) in B1. change 902%Z with (2 + 900)%Z. rewrite bpow_plus. change (bpow radix2 2) with 4. lra. }
    assert (/ (2 * IZR b) = / (4 * IZR b) + / (4 * IZR b)) by (field; lra). lra.
Qed.
Lemma quotient_nearest a b r : (0 < b)%Z -> (b <= 2 ^ 900)%Z -> (Z.abs a <= 2 ^ 51)%Z -> nearest (rnd (IZR a / IZR b)) r -> nearest (IZR a / IZR b) r.
Proof.
  intros B0 B1 A [N1 N2]. assert (B : 1 <= IZR b) by (apply IZR_le; lia). set (x := IZR a / IZR b) in *.
  assert (X : Rabs x <= 2251799813685248).
  { unfold x, Rdiv. rewrite Rabs_mult, <- abs_IZR, (Rabs_pos_eq (/ IZR b)) by (left; apply Rinv_0_lt_compat; lra).
    rewrite <- (Rmult_1_r 2251799813685248). apply Rmult_le_compat; [apply IZR_le; lia|left; apply Rinv_0_lt_compat; lra|apply IZR_le in A; exact A|].
    rewrite <- Rinv_1. apply Rinv_le; lra. }
  assert (RB : (Z.abs r <= 2 ^ 51 + 3)%Z).
  { apply le_IZR. rewrite plus_IZR, abs_IZR. pose proof (rnd_error x) as ER. pose proof eta_tiny.
    assert (Rabs x * eps <= 1) by (unfold eps; lra). unfold eps in *.
    assert (Rabs (IZR r) <= Rabs (IZR r - rnd x) + Rabs (rnd x - x) + Rabs x).
    { replace (IZR r) with ((IZR r - rnd x) + (rnd x - x) + x) at 1 by ring. eapply Rle_trans; [apply Rabs_triang|]. apply Rplus_le_compat_r, Rabs_triang. }
    rewrite (Rabs_minus_sym (IZR r)) in H1. change (IZR (2 ^ 51)) with 2251799813685248. lra. }
  assert (H2 : forall z, (z = 2 * r + 1 \/ z = 2 * r - 1)%Z -> rnd (IZR z / 2) = IZR z / 2) by (intros z Z; apply rnd_half; lia).
  assert (U : IZR (2 * r + 1) / 2 = IZR r + / 2) by (rewrite plus_IZR, mult_IZR; field).
  assert (D : IZR (2 * r - 1) / 2 = IZR r - / 2) by (rewrite minus_IZR, mult_IZR; field).
  apply Rabs_le_inv in N1. split.
  - apply Rabs_le. split.
    + destruct (Rle_lt_dec (IZR r - / 2) x) as [|L]; [lra|]. exfalso. pose proof (rnd_le _ _ (Rlt_le _ _ L)) as M. rewrite <- D, H2 in M by auto. rewrite D in M.
      assert (rnd x = IZR (2 * r - 1) / 2) as E by (rewrite D; lra). apply quotient_away in E; try assumption. fold x in E. lra.
    + destruct (Rle_lt_dec x (IZR r + / 2)) as [|L]; [lra|]. exfalso. pose proof (rnd_le _ _ (Rlt_le _ _ L)) as M. rewrite <- U, H2 in M by auto. rewrite U in M.
      assert (rnd x = IZR (2 * r + 1) / 2) as E by (rewrite U; lra). apply quotient_away in E; try assumption. fold x in E. lra.
  - intros T. apply N2. destruct (Rcase_abs (x - IZR r)) as [L|L].
    + rewrite (Rabs_left _ L) in T. assert (E : x = IZR (2 * r - 1) / 2) by lra. rewrite E, H2 by auto. rewrite <- E. rewrite Rabs_left; lra.
    + rewrite (Rabs_right _ L) in T. assert (E : x = IZR (2 * r + 1) / 2) by lra. rewrite E, H2 by auto. rewrite <- E. rewrite Rabs_right; lra.
Qed.

(** ** C59 *)
(** Scale 1 and offset 0: a float is rounded to the nearest raw value. *)
Theorem C59_identity scale offset c v : equals_int scale 1 -> equals_int offset 0 -> factory scale offset None false = Ok c -> num_finite v ->
  exists r, scaled_to_raw c (VNum v) = Ok (NInt r) /\ nearest (num_real v) r.
Proof.
  intros S O H F. unfold factory, num_factory in H. unfold equals_int in S, O. rewrite S, O in H. cbn [andb bind] in H. apply Ok_inj in H. subst c.
  cbn [scaled_to_raw numeric_scaled_to_raw nc_numeric_scaled_to_raw]. destruct v as [z|f]; cbn [num_real].
  - exists z. split; [reflexivity|apply nearest_int].
  - destruct (py_round_nearest f (proj2 F)) as (r & E & N). exists r. rewrite E. auto.
Qed.
Lemma div_int_nearest a b : (b <> 0)%Z -> (Z.abs b <= 2 ^ 900)%Z -> (Z.abs a <= 2 ^ 51)%Z ->
  exists f r, int_truediv a b = Ok f /\ py_round (NFlt f) = Ok r /\ nearest (IZR a / IZR b) r.
Proof.
  intros N B A. destruct (int_div_real a b N) as (f & E & [V F] & R).
  { apply rnd_bounded. assert (1 <= Rabs (IZR b)) by (rewrite <- abs_IZR; apply IZR_le; lia). unfold Rdiv. rewrite Rabs_mult, Rabs_inv.
    apply Rle_trans with (bpow radix2 51 * 1); [|rewrite Rmult_1_r; apply bpow_le; lia].
    apply Rmult_le_compat; [apply Rabs_pos|left; apply Rinv_0_lt_compat; lra|rewrite <- abs_IZR; apply IZR_le in A; exact A|rewrite <- Rinv_1; apply Rinv_le; lra]. }
  destruct (py_round_nearest f F) as (r & E2 & NR). rewrite R in NR. exists f, r. split; [exact E|]. split; [exact E2|].
  destruct (Z_lt_le_dec 0 b) as [P|P]; [apply quotient_nearest; try assumption; lia|].
  assert (X : IZR a / IZR b = IZR (- a) / IZR (- b)) by (rewrite !opp_IZR; field; intros Q; apply N; now apply eq_IZR).
  rewrite X in *. apply quotient_nearest; try assumption; lia.
Qed.
(** An integer scale and offset: every int is mapped to the nearest raw value, and the even one of two. *)
Theorem C59_integer scale offset c s o v : equals_int scale s -> equals_int offset o -> s <> 0%Z -> (Z.abs s <= 2 ^ 900)%Z -> (Z.abs (v - o) <= 2 ^ 51)%Z ->
  factory scale offset None false = Ok c ->
  exists r, scaled_to_raw c (VNum (NInt v)) = Ok (NInt r) /\ nearest (IZR (v - o) / IZR s) r.
Proof.
  intros S O N B A H. assert (NR : IZR s <> 0) by (intros Q; apply N; now apply eq_IZR). destruct (int_factory _ _ _ _ _ S O H) as [(-> & -> & ->)| ->].
  - exists v. split; [reflexivity|]. rewrite Z.sub_0_r. unfold Rdiv. rewrite Rinv_1, Rmult_1_r. apply nearest_int.
  - cbn [scaled_to_raw numeric_scaled_to_raw nc_numeric_scaled_to_raw]. unfold py_sub, py_arith. cbn [bind py_divmod]. rewrite (proj2 (Z.eqb_neq s 0) N). cbn [bind].
    unfold py_eq, py_compare. destruct (Z.compare_spec ((v - o) mod s) 0) as [M|M|M].
    + cbn [bind py_round]. exists ((v - o) / s)%Z. split; [reflexivity|]. apply Z.mod_divide in M; [|exact N]. destruct M as [k M]. rewrite M. rewrite Z.div_mul by exact N.
      rewrite mult_IZR. replace (IZR k * IZR s / IZR s) with (IZR k) by (field; exact NR). apply nearest_int.
    + destruct (div_int_nearest (v - o) s N B A) as (f & r & E1 & E2 & E3). cbn [py_truediv]. rewrite E1. cbn [bind]. rewrite E2. cbn [bind]. eauto.
    + destruct (div_int_nearest (v - o) s N B A) as (f & r & E1 & E2 & E3). cbn [py_truediv]. rewrite E1. cbn [bind]. rewrite E2. cbn [bind]. eauto.
Qed.

(** ** divmod of floats *)
Definition sval (s : bool) (m : positive) : Z := signed_Z s (Z.pos m).
Lemma fval_fin s m e : fval (S754_finite s m e) = IZR (sval s m) * bpow radix2 e.
Proof. unfold fval, sval. cbn [SF2R]. now destruct s. Qed.
Lemma finite_bounds s m e : finite64 (S754_finite s m e) -> (Z.pos m < 2 ^ 53 /\ -1074 <= e)%Z.
Proof.
  intros [V _]. unfold valid_binary, SpecFloat.bounded, canonical_mantissa in V. apply andb_true_iff in V. destruct V as [V _]. apply Zeq_bool_eq in V.
  unfold SpecFloat.fexp, SpecFloat.emin in V. pose proof (digits2_pos_bound m) as [_ B]. assert (D : (Z.pos (digits2_pos m) <= 53)%Z) by lia. split; [|lia].
  eapply Z.lt_le_trans; [exact B|]. apply Z.pow_le_mono_r; lia.
Qed.
Lemma rnd_exact z e : (Z.abs z < 2 ^ 53)%Z -> (-1074 <= e)%Z -> rnd (F2R (Float radix2 z e)) = F2R (Float radix2 z e).
Proof.
  intros H E. unfold rnd. apply round_generic; [typeclasses eauto|]. change (SpecFloat.fexp 53 1024) with (FLT_exp (-1074) 53).
  now apply generic_format_FLT, (FLT_spec radix2 (-1074) 53 _ (Float radix2 z e)).
Qed.
Lemma zero_value f : finite64 f -> fval f = 0 -> is_zero f = true.
Proof.
  intros [_ F] H. destruct f as [s|s| |s m e]; try discriminate F; [reflexivity|]. exfalso. rewrite fval_fin in H. apply Rmult_integral in H. destruct H as [H|H].
  - apply eq_IZR in H. unfold sval in H. destruct s; cbn in H; lia.
  - pose proof (bpow_gt_0 radix2 e). lra.
Qed.
Lemma is_zero_value f : is_zero f = true -> fval f = 0.
Proof. destruct f; try discriminate. reflexivity. Qed.
Lemma shift_value m e e' : (e' <= e)%Z -> IZR m * bpow radix2 e = IZR (m * 2 ^ (e - e')) * bpow radix2 e'.
Proof. intros H. rewrite mult_IZR. change (2 ^ (e - e'))%Z with (Zpower radix2 (e - e')). rewrite IZR_Zpower by lia. rewrite Rmult_assoc, <- bpow_plus. do 2 f_equal. lia. Qed.

(** The remainder is exact. *)
Lemma fmod_real x y : finite64 x -> finite64 y -> fval y <> 0 ->
  let m := float_fmod x y in
  finite64 m /\ (is_zero m = true -> exists k, fval x = IZR k * fval y) /\ Rabs (fval m) < Rabs (fval y).
Proof.
  intros FX FY NY. destruct y as [sy|sy| |sy my ey]; try (now destruct FY; discriminate); [exfalso; apply NY; reflexivity|].
  pose proof (finite_bounds _ _ _ FY) as [BY EY]. assert (PY : 0 < Rabs (fval (S754_finite sy my ey))) by (apply Rabs_pos_lt, NY).
  destruct x as [sx|sx| |sx mx ex]; try (now destruct FX; discriminate).
  - cbn [float_fmod]. split; [exact FX|]. change (fval (S754_zero sx)) with 0. split; [intros _; exists 0%Z; ring|]. rewrite Rabs_R0. exact PY.
  - pose proof (finite_bounds _ _ _ FX) as [BX EX]. cbn [float_fmod]. cbv zeta. set (e := Z.min ex ey).
    set (a := (Z.pos mx * 2 ^ (ex - e))%Z). set (b := (Z.pos my * 2 ^ (ey - e))%Z).
    assert (A : (0 < a)%Z) by (apply Z.mul_pos_pos; [lia|apply Z.pow_pos_nonneg; lia]).
    assert (B : (0 < b)%Z) by (apply Z.mul_pos_pos; [lia|apply Z.pow_pos_nonneg; lia]).
    assert (VX : fval (S754_finite sx mx ex) = IZR (signed_Z sx a) * bpow radix2 e).
    { rewrite fval_fin, (shift_value _ ex e) by lia. unfold sval, a. destruct sx; cbn [signed_Z]; [|reflexivity]. now rewrite Z.mul_opp_l. }
    assert (VY : fval (S754_finite sy my ey) = IZR (signed_Z sy b) * bpow radix2 e).
    { rewrite fval_fin, (shift_value _ ey e) by lia. unfold sval, b. destruct sy; cbn [signed_Z]; [|reflexivity]. now rewrite Z.mul_opp_l. }
    pose proof (Z.mod_pos_bound a b B) as MB. pose proof (Z.div_mod a b ltac:(lia)) as DM.
    assert (LE : (a mod b < 2 ^ 53)%Z).
    { destruct (Z_le_gt_dec ey ex) as [G|G].
      - assert (e = ey) as X by lia. assert (b = Z.pos my) as Y by (unfold b; rewrite X, Z.sub_diag; cbn; lia). lia.
      - assert (e = ex) as X by lia. assert (a = Z.pos mx) as Y by (unfold a; rewrite X, Z.sub_diag; cbn; lia). pose proof (Z.mod_le a b ltac:(lia) B). lia. }
    assert (ABSY : Rabs (fval (S754_finite sy my ey)) = IZR b * bpow radix2 e).
    { rewrite VY, Rabs_mult, <- abs_IZR, (Rabs_pos_eq (bpow radix2 e)) by apply bpow_ge_0. do 2 f_equal. destruct sy; cbn [signed_Z]; lia. }
    destruct (Z.eqb_spec (a mod b) 0) as [Z0|NZ].
    + split; [split; reflexivity|]. change (fval (S754_zero sx)) with 0. rewrite Rabs_R0. split; [|exact PY]. intros _.
      exists (signed_Z (xorb sx sy) (a / b))%Z. rewrite VX, VY, <- Rmult_assoc, <- mult_IZR. do 2 f_equal. destruct sx, sy; cbn [signed_Z xorb]; lia.
    + set (z := signed_Z sx (a mod b)). assert (AZ : Z.abs z = (a mod b)%Z) by (unfold z; destruct sx; cbn [signed_Z]; lia).
      assert (EQ : rnd (F2R (Float radix2 z e)) = F2R (Float radix2 z e)) by (apply rnd_exact; lia).
      assert (AB : Rabs (F2R (Float radix2 z e)) < Rabs (fval (S754_finite sy my ey))).
      { rewrite ABSY. unfold F2R. cbn [Fnum Fexp]. rewrite Rabs_mult, <- abs_IZR, AZ, (Rabs_pos_eq (bpow radix2 e)) by apply bpow_ge_0.
        apply Rmult_lt_compat_r; [apply bpow_gt_0|]. apply IZR_lt. lia. }
      destruct (norm_real z e) as [N1 N2]; [rewrite EQ; eapply Rlt_trans; [exact AB|apply fval_bounded; exact FY]|].
      unfold prec, emax. rewrite EQ in N2. split; [exact N1|]. rewrite N2. split; [|exact AB].
      intros H. apply is_zero_value in H. rewrite N2 in H. exfalso. apply NZ. rewrite <- AZ. apply eq_0_F2R in H. rewrite H. reflexivity.
Qed.
Lemma eq_zero f : py_eq (NFlt f) (NInt 0) = true -> is_zero f = true.
Proof.
  unfold py_eq. cbn [py_compare]. destruct f as [s|s| |s m e]; try reflexivity; [now destruct s|discriminate|]. cbn [cmp_Z_float option_map].
  destruct (Z.leb_spec 0 e) as [H|H].
  - assert (0 < Z.pos m * 2 ^ e)%Z by (apply Z.mul_pos_pos; [lia|apply Z.pow_pos_nonneg; lia]).
    destruct (Z.compare_spec 0 (signed_Z s (Z.pos m * 2 ^ e))) as [E| |]; cbn; try discriminate. destruct s; cbn [signed_Z] in E; lia.
  - rewrite Z.mul_0_l. destruct s; discriminate.
Qed.
Lemma rnd_of_int k : exists z, rnd (IZR k) = IZR z.
Proof.
  assert (F : generic_format radix2 (FIX_exp 0) (IZR k)).
  { apply generic_format_FIX. exists (Float radix2 k 0); [now rewrite F2R_int|reflexivity]. }
  pose proof (generic_round_generic radix2 (FIX_exp 0) (SpecFloat.fexp 53 1024) ZnearestE (IZR k) F) as G.
  apply FIX_format_generic in G. destruct G as [[n e] G1 G2]. cbn in G2. subst e. exists n. unfold rnd. now rewrite G1, F2R_int.
Qed.
Lemma floor_int f z : finite64 f -> fval f = IZR z -> finite64 (float_floor f) /\ fval (float_floor f) = fval f.
Proof.
  intros F H. destruct f as [s|s| |s m e]; try (now destruct F; discriminate); [split; [exact F|reflexivity]|]. cbn [float_floor].
  destruct (Z.leb_spec 0 e) as [E|E]; [split; [exact F|reflexivity]|].
  assert (D : (0 < 2 ^ (- e))%Z) by (apply Z.pow_pos_nonneg; lia).
  assert (V : (signed_Z s (Z.pos m) = z * 2 ^ (- e))%Z).
  { apply eq_IZR. rewrite mult_IZR. change (2 ^ (- e))%Z with (Zpower radix2 (- e)). rewrite IZR_Zpower by lia. rewrite <- H, fval_fin. unfold sval.
    rewrite Rmult_assoc, <- bpow_plus. replace (e + - e)%Z with 0%Z by lia. change (bpow radix2 0) with 1. ring. }
  rewrite V, Z.div_mul by lia. destruct (Z.eqb_spec z 0) as [->|NZ]; [exfalso; destruct s; cbn [signed_Z] in V; lia|].
  destruct (norm_real z 0) as [N1 N2].
  { rewrite F2R_int, <- H, rnd_fval by exact F. apply fval_bounded, F. }
  unfold prec, emax. split; [exact N1|]. rewrite N2, F2R_int, <- H. now apply rnd_fval.
Qed.
(** If the remainder is zero the quotient is the rounded quotient. *)
Lemma divmod_real x y q m : finite64 x -> finite64 y -> fval y <> 0 -> Rabs (fval y) <= bpow radix2 900 -> Rabs (rnd (fval x / fval y)) < big -> float_divmod x y = (q, m) -> py_eq (NFlt m) (NInt 0) = true ->
  finite64 q /\ fval q = rnd (fval x / fval y).
Proof.
  intros FX FY NY HY HB E EQ. unfold float_divmod in E. destruct (fmod_real x y FX FY NY) as (FM & MZ & ML). set (m0 := float_fmod x y) in *.
  destruct (is_zero m0) eqn:Z0.
  - destruct (MZ eq_refl) as [k K]. pose proof (is_zero_value _ Z0) as V0.
    assert (RK : fval x / fval y = IZR k) by (rewrite K; field; exact NY).
    destruct (fsub_real x m0 FX FM) as [S1 S2]; [rewrite V0, Rminus_0_r, rnd_fval by exact FX; now apply fval_bounded|]. rewrite V0, Rminus_0_r, rnd_fval in S2 by exact FX.
    destruct (fdiv_real (fsub x m0) y S1 FY NY) as [D1 D2]; [rewrite S2; exact HB|]. rewrite S2 in D2. set (d0 := fdiv (fsub x m0) y) in *.
    cbn beta iota in E. destruct (is_zero d0) eqn:ZD; injection E as <- _.
    + split; [split; reflexivity|]. rewrite <- D2, (is_zero_value _ ZD). reflexivity.
    + destruct (rnd_of_int k) as [z RZ]. destruct (floor_int d0 z D1) as [L1 L2]; [rewrite D2, RK; exact RZ|].
      destruct (fsub_real d0 (float_floor d0) D1 L1) as [T1 T2]; [rewrite L2, Rminus_diag_eq by reflexivity; apply rnd_bounded; rewrite Rabs_R0; apply bpow_ge_0|].
      rewrite L2, Rminus_diag_eq in T2 by reflexivity. unfold rnd in T2. rewrite round_0 in T2 by typeclasses eauto. apply zero_value in T2; [|exact T1].
      destruct (fsub d0 (float_floor d0)) as [s|s| |s m' e']; try discriminate T2.
      replace (SFltb float_half (S754_zero s)) with false by (destruct s; vm_compute; reflexivity). split; [exact L1|]. now rewrite L2.
  - exfalso. assert (M : m = m0 \/ m = fadd m0 y) by (destruct (xorb (float_neg y) (float_neg m0)); injection E as _ <-; auto). apply eq_zero in EQ.
    destruct M as [-> | ->]; [congruence|]. apply is_zero_value in EQ.
    assert (NS : fval m0 + fval y <> 0).
    { intros Q. assert (fval m0 = - fval y) as W by lra. rewrite W, Rabs_Ropp in ML. lra. }
    destruct (fadd_real m0 y FM FY) as [A1 A2].
    { apply rnd_bounded. eapply Rle_trans; [apply Rabs_triang|]. apply Rle_trans with (bpow radix2 900 * 2); [lra|].
      change 2 with (bpow radix2 1). rewrite <- bpow_plus. apply bpow_le. lia. }
    rewrite A2 in EQ. revert EQ. unfold rnd. apply round_plus_neq_0; [typeclasses eauto|change (SpecFloat.fexp 53 1024) with (FLT_exp (-1074) 53); typeclasses eauto|typeclasses eauto| | |exact NS].
    + rewrite <- (rnd_fval _ FM). apply generic_format_round; typeclasses eauto.
    + rewrite <- (rnd_fval _ FY). apply generic_format_round; typeclasses eauto.
Qed.

(** ** All conversions, up to rounding of floats *)
(** The number is finite and its magnitude at most 2^400. *)
Definition moderate (n : num) : Prop := num_finite n /\ Rabs (num_real n) <= bpow radix2 400.

Lemma moderate_float n : moderate n -> exists f, to_float n = Ok f /\ finite64 f /\ fval f = rnd (num_real n) /\ Rabs (fval f) <= bpow radix2 401 /\ Rabs (fval f - num_real n) <= Rabs (num_real n) * eps + eta.
Proof.
  intros [F B]. destruct (to_float_real n F) as (f & E1 & E2 & E3).
  { apply rnd_bounded. eapply Rle_trans; [exact B|]. apply bpow_le. lia. }
  exists f. split; [exact E1|]. split; [exact E2|]. split; [exact E3|]. pose proof (rnd_error (num_real n)) as ER. rewrite E3. split; [|exact ER].
  apply Rabs_near in ER. eapply Rle_trans; [exact ER|]. assert (X : 1 <= bpow radix2 400) by (change 1 with (bpow radix2 0); apply bpow_le; lia).
  change 401%Z with (1 + 400)%Z. rewrite bpow_plus. change (bpow radix2 1) with 2. pose proof eta_tiny. unfold eps in *. lra.
Qed.
Lemma sub_real a b : moderate a -> moderate b ->
  exists d fd, py_sub a b = Ok d /\ to_float d = Ok fd /\ finite64 fd /\
    Rabs (fval fd - (num_real a - num_real b)) <= 3 * (Rabs (num_real a) + Rabs (num_real b)) * eps + 4 * eta /\
    match d with NInt z => IZR z = num_real a - num_real b /\ two_ints a b | NFlt f => f = fd /\ ~ two_ints a b end.
Proof.
  intros MA MB. destruct (moderate_float a MA) as (fa & A1 & A2 & _ & A3 & A4), (moderate_float b MB) as (fb & B1 & B2 & _ & B3 & B4). destruct MA as [FA MA], MB as [FB MB].
  pose proof (Rabs_pos (num_real a)) as PA. pose proof (Rabs_pos (num_real b)) as PB. pose proof eta_pos as P. pose proof eta_tiny as TI.
  assert (DEC : {two_ints a b} + {~ two_ints a b}) by (destruct a, b; cbn; auto). destruct DEC as [TW|TW].
  - destruct a as [x|x], b as [y|y]; try contradiction. cbn [num_real] in *. exists (NInt (x - y)).
    destruct (to_float_real (NInt (x - y)) I) as (f & E1 & E2 & E3).
    { apply rnd_bounded. cbn [num_real]. rewrite minus_IZR. apply Rle_trans with (bpow radix2 400 * 2).
      - eapply Rle_trans; [apply (Rabs_triang (IZR x) (- IZR y))|]. rewrite Rabs_Ropp. lra.
      - change 2 with (bpow radix2 1). rewrite <- bpow_plus. apply bpow_le. lia. }
    cbn [num_real] in E3. exists f. split; [reflexivity|]. split; [exact E1|]. split; [exact E2|]. rewrite E3, minus_IZR. split; [|split; [reflexivity|exact I]].
    pose proof (rnd_error (IZR x - IZR y)) as ER. assert (Rabs (IZR x - IZR y) <= Rabs (IZR x) + Rabs (IZR y)) by (unfold Rminus; rewrite <- (Rabs_Ropp (IZR y)); apply Rabs_triang).
    unfold eps in *. lra.
  - assert (SB : Rabs (fval fa - fval fb) <= Rabs (num_real a) + Rabs (num_real b) + (Rabs (num_real a) + Rabs (num_real b)) * eps + 2 * eta).
    { apply Rabs_near in A4, B4. eapply Rle_trans; [apply (Rabs_triang (fval fa) (- fval fb))|]. rewrite Rabs_Ropp. unfold eps in *. lra. }
    destruct (py_addsub_real false a b fa fb) as (f & E1 & E2 & E3); try assumption.
    { destruct a, b; try exact I. now apply TW. }
    { apply Rle_trans with (bpow radix2 401 * 2).
      - eapply Rle_trans; [apply (Rabs_triang (fval fa) (- fval fb))|]. rewrite Rabs_Ropp. lra.
      - change 2 with (bpow radix2 1). rewrite <- bpow_plus. apply bpow_le. lia. }
    exists (NFlt f), f. split; [exact E1|]. split; [reflexivity|]. split; [exact E2|]. split; [|auto]. rewrite E3.
    pose proof (rnd_error (fval fa - fval fb)) as ER.
    replace (rnd (fval fa - fval fb) - (num_real a - num_real b)) with ((rnd (fval fa - fval fb) - (fval fa - fval fb)) + ((fval fa - num_real a) + - (fval fb - num_real b))) by ring.
    eapply Rle_trans; [apply Rabs_triang|]. assert (Rabs (fval fa - num_real a + - (fval fb - num_real b)) <= Rabs (fval fa - num_real a) + Rabs (fval fb - num_real b)) by (rewrite <- (Rabs_Ropp (fval fb - num_real b)); apply Rabs_triang).
    unfold eps in *. lra.
Qed.

(** The error of a division of rounded numbers *)
Lemma quotient_error D V T S A : 0 < Rabs S -> eta <= Rabs S * eps -> Rabs V <= A -> Rabs (D - V) <= 3 * A * eps + 4 * eta -> Rabs (T - S) <= 2 * Rabs S * eps ->
  T <> 0 /\ Rabs (rnd (D / T) - V / S) <= 8 * eps * (A / Rabs S + 1).
Proof.
  intros PS HE HV HD HT. assert (NS : S <> 0) by (intros ->; rewrite Rabs_R0 in PS; lra).
  assert (PA : 0 <= A) by (eapply Rle_trans; [apply Rabs_pos|exact HV]). pose proof eta_pos as PE. pose proof eta_tiny as TE.
  assert (T1 : Rabs S * (1 - 2 * eps) <= Rabs T).
  { pose proof (Rabs_near S T (2 * Rabs S * eps)) as X. rewrite Rabs_minus_sym in X. specialize (X HT). lra. }
  assert (E0 : 0 < 1 - 2 * eps) by (unfold eps; lra).
  assert (PT : 0 < Rabs T) by (eapply Rlt_le_trans; [|exact T1]; now apply Rmult_lt_0_compat).
  assert (NT : T <> 0) by (intros ->; rewrite Rabs_R0 in PT; lra). split; [exact NT|].
  set (i := / Rabs S). assert (PI : 0 < i) by now apply Rinv_0_lt_compat. assert (SI : Rabs S * i = 1) by (unfold i; field; lra).
  assert (IT : / Rabs T <= i * (1001 / 1000)).
  { apply (Rmult_le_reg_r (Rabs T)); [exact PT|]. rewrite Rinv_l by lra. apply Rle_trans with (i * (1001 / 1000) * (Rabs S * (1 - 2 * eps))).
    - replace (i * (1001 / 1000) * (Rabs S * (1 - 2 * eps))) with (Rabs S * i * ((1001 / 1000) * (1 - 2 * eps))) by ring. rewrite SI. unfold eps. lra.
    - apply Rmult_le_compat_l; [|exact T1]. apply Rmult_le_pos; lra. }
  assert (EI : eta * i <= eps).
  { apply Rle_trans with (Rabs S * eps * i); [apply Rmult_le_compat_r; lra|]. replace (Rabs S * eps * i) with (Rabs S * i * eps) by ring. rewrite SI. lra. }
  set (a := A * i). assert (PAI : 0 <= a) by (apply Rmult_le_pos; lra).
  assert (Q : Rabs (D / T - V / S) <= (5 * a * eps + 4 * eps) * (1001 / 1000)).
  { replace (D / T - V / S) with (((D - V) + - (V * (T - S) / S)) * / T) by (field; auto). rewrite Rabs_mult, Rabs_inv.
    apply Rle_trans with ((5 * A * eps + 4 * eta) * (i * (1001 / 1000))).
    - apply Rmult_le_compat; [apply Rabs_pos|left; now apply Rinv_0_lt_compat| |exact IT].
      eapply Rle_trans; [apply Rabs_triang|]. rewrite Rabs_Ropp. unfold Rdiv. rewrite !Rabs_mult, Rabs_inv. fold i.
      assert (Rabs V * Rabs (T - S) * i <= A * (2 * Rabs S * eps) * i).
      { apply Rmult_le_compat_r; [lra|]. apply Rmult_le_compat; auto using Rabs_pos. }
      replace (A * (2 * Rabs S * eps) * i) with (2 * A * eps * (Rabs S * i)) in H by ring. rewrite SI in H. lra.
    - replace ((5 * A * eps + 4 * eta) * (i * (1001 / 1000))) with ((5 * a * eps + 4 * (eta * i)) * (1001 / 1000)) by (unfold a; ring). lra. }
  assert (X : Rabs (V / S) <= a).
  { unfold Rdiv, a. rewrite Rabs_mult, Rabs_inv. fold i. apply Rmult_le_compat_r; lra. }
  pose proof (Rabs_near _ _ _ Q) as N. pose proof (rnd_error (D / T)) as ER.
  replace (rnd (D / T) - V / S) with ((rnd (D / T) - D / T) + (D / T - V / S)) by ring. eapply Rle_trans; [apply Rabs_triang|].
  change (A / Rabs S) with a. unfold eps in *. lra.
Qed.

Lemma eps50 : 8 * eps = bpow radix2 (-50).
Proof. unfold eps. change (bpow radix2 (-50)) with (/ 1125899906842624). lra. Qed.

(** The raw value lies within half a step of (value - offset) / scale, up to the rounding of the float operations. *)
Theorem C59_general scale offset c v :
  num_finite scale -> bpow radix2 (-400) <= Rabs (num_real scale) <= bpow radix2 400 -> moderate offset -> moderate v -> factory scale offset None false = Ok c ->
  exists r, scaled_to_raw c (VNum v) = Ok (NInt r) /\
    Rabs (IZR r - (num_real v - num_real offset) / num_real scale)
      <= / 2 + bpow radix2 (-50) * ((Rabs (num_real v) + Rabs (num_real offset)) / Rabs (num_real scale) + 1).
Proof.
  intros FS [S1 S2] MO MV H. rewrite <- eps50. set (S := num_real scale) in *. set (V := num_real v - num_real offset). set (A := Rabs (num_real v) + Rabs (num_real offset)).
  assert (PS : 0 < Rabs S) by (eapply Rlt_le_trans; [apply bpow_gt_0|exact S1]). assert (NS : S <> 0) by (intros E; rewrite E, Rabs_R0 in PS; lra).
  assert (PA : 0 <= A) by (apply Rplus_le_le_0_compat; apply Rabs_pos). assert (PE : 0 < eps) by (unfold eps; lra).
  assert (VA : Rabs V <= A) by (unfold V, A, Rminus; rewrite <- (Rabs_Ropp (num_real offset)); apply Rabs_triang).
  assert (HE : eta <= Rabs S * eps).
  { eapply Rle_trans; [apply eta_small|]. apply Rmult_le_compat_r; [lra|]. eapply Rle_trans; [|exact S1]. apply bpow_le. lia. }
  assert (PB : 0 <= 8 * eps * (A / Rabs S + 1)).
  { apply Rmult_le_pos; [lra|]. apply Rplus_le_le_0_compat; [|lra]. apply Rmult_le_pos; [exact PA|left; now apply Rinv_0_lt_compat]. }
  assert (BIG : forall q, Rabs (q - V / S) <= 8 * eps * (A / Rabs S + 1) -> Rabs q < big).
  { intros q Q. apply Rabs_near in Q.
    assert (AS : A / Rabs S <= bpow radix2 801).
    { unfold Rdiv. apply Rle_trans with (bpow radix2 401 * bpow radix2 400); [|rewrite <- bpow_plus; apply bpow_le; lia].
      apply Rmult_le_compat; [exact PA|left; now apply Rinv_0_lt_compat| |].
      - change 401%Z with (400 + 1)%Z. rewrite bpow_plus. change (bpow radix2 1) with 2. destruct MO as [_ MO], MV as [_ MV]. unfold A. lra.
      - change 400%Z with (- (-400))%Z. rewrite bpow_opp. apply Rinv_le; [apply bpow_gt_0|exact S1]. }
    assert (VS : Rabs (V / S) <= A / Rabs S) by (unfold Rdiv; rewrite Rabs_mult, Rabs_inv; apply Rmult_le_compat_r; [left; now apply Rinv_0_lt_compat|exact VA]).
    apply Rle_lt_trans with (bpow radix2 801 * 4); [|change 4 with (bpow radix2 2); rewrite <- bpow_plus; apply bpow_lt; lia].
    assert (1 <= bpow radix2 801) by (change 1 with (bpow radix2 0); apply bpow_le; lia). unfold eps in *. lra. }
  assert (FIN : forall f, finite64 f -> Rabs (fval f - V / S) <= 8 * eps * (A / Rabs S + 1) ->
            exists r, py_round (NFlt f) = Ok r /\ Rabs (IZR r - V / S) <= / 2 + 8 * eps * (A / Rabs S + 1)).
  { intros f F Q. destruct (py_round_nearest f (proj2 F)) as (r & E & N & _). exists r. split; [exact E|].
    replace (IZR r - V / S) with (- (fval f - IZR r) + (fval f - V / S)) by ring. eapply Rle_trans; [apply Rabs_triang|]. rewrite Rabs_Ropp. lra. }
  assert (STEP : forall sc os, num_finite sc -> num_real sc = S -> moderate os -> num_real os = num_real offset ->
            exists fs d fd, to_float sc = Ok fs /\ finite64 fs /\ fval fs <> 0 /\ Rabs (fval fs) <= bpow radix2 900 /\ py_sub v os = Ok d /\ to_float d = Ok fd /\ finite64 fd /\
              match d with NInt _ => two_ints v os | NFlt f => f = fd end /\
              Rabs (rnd (fval fd / fval fs)) < big /\ Rabs (rnd (fval fd / fval fs) - V / S) <= 8 * eps * (A / Rabs S + 1)).
  { intros sc os FC VC MC VO. destruct (moderate_float sc) as (fs & T1 & T2 & T3 & TB & T4); [split; [exact FC|rewrite VC; exact S2]|].
    rewrite VC in T3, T4. assert (T5 : Rabs (fval fs - S) <= 2 * Rabs S * eps) by lra.
    destruct (sub_real v os MV MC) as (d & fd & D1 & D2 & D3 & D4 & D5). rewrite VO in D4. fold V A in D4.
    destruct (quotient_error (fval fd) V (fval fs) S A PS HE VA D4 T5) as [NT QE].
    exists fs, d, fd. repeat (split; [eassumption || (eapply Rle_trans; [exact TB|apply bpow_le; lia])|]). split; [destruct d; apply D5|]. split; [exact (BIG _ QE)|exact QE]. }
  destruct MO as [FO MO].
  destruct (linear_cases scale offset c FS FO H) as [(s & o & Es & Eo) | [-> NI]].
  - destruct (int_factory _ _ _ _ _ Es Eo H) as [(-> & -> & ->)| ->].
    + destruct (C59_identity scale offset (CNum (CIdent false)) v Es Eo H (proj1 MV)) as (r & E & N & _). exists r. split; [exact E|].
      unfold V, S. rewrite (equals_int_real _ _ Es), (equals_int_real _ _ Eo). rewrite Rminus_0_r. unfold Rdiv at 1. rewrite Rinv_1, Rmult_1_r, Rabs_minus_sym.
      unfold S in PB. rewrite (equals_int_real _ _ Es) in PB. lra.
    + assert (SV : S = IZR s) by now apply equals_int_real. assert (OV : num_real offset = IZR o) by now apply equals_int_real.
      assert (N0 : s <> 0%Z) by (intros ->; now apply NS).
      cbn [scaled_to_raw numeric_scaled_to_raw nc_numeric_scaled_to_raw]. destruct v as [x|f].
      * unfold py_sub, py_arith. cbn [bind py_divmod]. rewrite (proj2 (Z.eqb_neq s 0) N0). cbn [bind].
        assert (VZ : V / S = IZR (x - o) / IZR s) by (unfold V; cbn [num_real]; now rewrite OV, SV, minus_IZR). rewrite VZ.
        assert (Q : Rabs (rnd (IZR (x - o) / IZR s) - V / S) <= 8 * eps * (A / Rabs S + 1)).
        { rewrite <- VZ. pose proof (rnd_error (V / S)) as ER. eapply Rle_trans; [exact ER|].
          assert (VS : Rabs (V / S) <= A / Rabs S) by (unfold Rdiv; rewrite Rabs_mult, Rabs_inv; apply Rmult_le_compat_r; [left; now apply Rinv_0_lt_compat|exact VA]).
          pose proof eta_tiny. pose proof (Rabs_pos (V / S)). unfold eps in *. lra. }
        destruct (int_div_real (x - o) s N0 (BIG _ Q)) as (g & G1 & G2 & G3). rewrite <- G3 in Q. destruct (FIN g G2 Q) as (r & R1 & R2). rewrite VZ in R2.
        unfold py_eq, py_compare. destruct (Z.compare_spec ((x - o) mod s) 0) as [M|M|M].
        -- cbn [bind py_round]. exists ((x - o) / s)%Z. split; [reflexivity|]. apply Z.mod_divide in M; [|exact N0]. destruct M as [k M]. rewrite M. rewrite Z.div_mul by exact N0.
           rewrite mult_IZR. replace (IZR k * IZR s / IZR s) with (IZR k) by (field; rewrite <- SV; exact NS). rewrite Rminus_diag_eq, Rabs_R0 by reflexivity. lra.
        -- cbn [py_truediv]. rewrite G1. cbn [bind]. rewrite R1. cbn [bind]. eauto.
        -- cbn [py_truediv]. rewrite G1. cbn [bind]. rewrite R1. cbn [bind]. eauto.
      * destruct (STEP (NInt s) (NInt o) I (eq_sym SV)) as (fs & d & fd & T1 & T2 & NT & TB & D1 & D2 & D3 & D5 & QB & QE).
        { split; [exact I|]. cbn [num_real]. rewrite <- OV. exact MO. }
        { cbn [num_real]. now rewrite OV. }
        rewrite D1. cbn [bind]. destruct d as [z|d]; [contradiction|]. subst d. unfold py_divmod, py_truediv. rewrite D2. cbn [bind]. rewrite T1. cbn [bind].
        rewrite (fval_zero fs T2 NT). destruct (float_divmod fd fs) as [q m] eqn:DM. cbn [bind]. destruct (py_eq (NFlt m) (NInt 0)) eqn:EM.
        -- cbn [bind]. destruct (divmod_real fd fs q m D3 T2 NT TB QB DM EM) as [Q1 Q2]. rewrite <- Q2 in QE. destruct (FIN q Q1 QE) as (r & R1 & R2). rewrite R1. cbn [bind]. eauto.
        -- cbn [bind]. destruct (fdiv_real fd fs D3 T2 NT QB) as [Q1 Q2]. rewrite <- Q2 in QE. destruct (FIN _ Q1 QE) as (r & R1 & R2). rewrite R1. cbn [bind]. eauto.
  - destruct (STEP scale offset FS eq_refl (conj FO MO) eq_refl) as (fs & d & fd & T1 & T2 & NT & TB & D1 & D2 & D3 & D5 & QB & QE).
    cbn [scaled_to_raw numeric_scaled_to_raw nc_numeric_scaled_to_raw]. rewrite D1. cbn [bind].
    assert (E : py_truediv d scale = Ok (NFlt (fdiv fd fs))).
    { destruct d as [z|d].
      - destruct v as [x|x], offset as [y|y]; try contradiction. destruct scale as [w|w]; [now exfalso; apply NI|]. unfold py_truediv. rewrite D2, T1. cbn [bind]. now rewrite (fval_zero fs T2 NT).
      - unfold py_truediv. rewrite D2, T1. cbn [bind]. now rewrite (fval_zero fs T2 NT). }
    rewrite E. cbn [bind]. destruct (fdiv_real fd fs D3 T2 NT QB) as [Q1 Q2]. rewrite <- Q2 in QE. destruct (FIN _ Q1 QE) as (r & R1 & R2). rewrite R1. cbn [bind]. eauto.
Qed.

(** 23.4 *)
Definition f23_4 : float := S754_finite false 6586514455029350 (-48).
Definition f2_5 : float := S754_finite false 5629499534213120 (-51).
Lemma finite_by f : valid_binary 53 1024 f = true -> is_finite_SF f = true -> finite64 f.
Proof. intros. now split. Qed.
Example C59_hypotheses :
  (equals_int (NInt 1) 1 /\ equals_int (NInt 0) 0 /\ num_finite (NFlt f2_5) /\ exists c, factory (NInt 1) (NInt 0) None false = Ok c /\ scaled_to_raw c (VNum (NFlt f2_5)) = Ok (NInt 2)) /\
  (equals_int (NInt (-4)) (-4) /\ equals_int (NInt 7) 7 /\ exists c, factory (NInt (-4)) (NInt 7) None false = Ok c /\ scaled_to_raw c (VNum (NInt 13)) = Ok (NInt (-2))) /\
  (num_finite (NFlt f0_1) /\ bpow radix2 (-400) <= Rabs (num_real (NFlt f0_1)) <= bpow radix2 400 /\ moderate (NInt (-40)) /\ moderate (NFlt f23_4) /\
   exists c, factory (NFlt f0_1) (NInt (-40)) None false = Ok c /\ scaled_to_raw c (VNum (NFlt f23_4)) = Ok (NInt 634)).
Proof.
  assert (V : num_real (NFlt f0_1) = 7205759403792794 * / 72057594037927936) by reflexivity.
  assert (W : num_real (NFlt f23_4) = 6586514455029350 * / 281474976710656) by reflexivity.
  assert (P1 : bpow radix2 (-400) <= / 16) by (change (/ 16) with (bpow radix2 (-4)); apply bpow_le; lia).
  assert (P2 : 64 <= bpow radix2 400) by (change 64 with (bpow radix2 6); apply bpow_le; lia).
  split; [|split].
  - split; [reflexivity|]. split; [reflexivity|]. split; [apply finite_by; reflexivity|]. eexists. split; [reflexivity|vm_compute; reflexivity].
  - split; [reflexivity|]. split; [reflexivity|]. eexists. split; [reflexivity|vm_compute; reflexivity].
  - split; [apply finite_by; vm_compute; reflexivity|]. rewrite V, Rabs_pos_eq by lra. split; [split; lra|]. split; [split; [exact I|]; cbn [num_real]; rewrite Rabs_left by lra; lra|].
    split; [split; [apply finite_by; vm_compute; reflexivity|]; rewrite W, Rabs_pos_eq by lra; lra|]. eexists. split; [vm_compute; reflexivity|vm_compute; reflexivity].
Qed.
(** For large values the division in floating point misses the nearest raw value. *)
Theorem C59_large_refuted :
  ~ (forall c v r, factory (NInt 3) (NInt 0) None false = Ok c -> scaled_to_raw c (VNum (NInt v)) = Ok (NInt r) -> nearest (IZR (v - 0) / IZR 3) r).
Proof.
  intros H. specialize (H _ (2 ^ 60 + 1)%Z 384307168202282304%Z eq_refl). destruct H as [H _]; [vm_compute; reflexivity|].
  apply Rabs_le_inv in H. replace (2 ^ 60 + 1 - 0)%Z with 1152921504606846977%Z in H by reflexivity. lra.
Qed.
