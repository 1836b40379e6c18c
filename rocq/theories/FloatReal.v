(** FloatReal: the Python float operations of PyNum compute the rounded real results.

    Uses Flocq (and through it the axioms of the standard library's real numbers). *)
From Coq Require Import Reals Lra Psatz Floats.SpecFloat.
From Flocq Require Import Core Relative BinarySingleNaN.
From Verif Require Import Base PyNum.
Open Scope R_scope.

Local Instance Hprec : FLX.Prec_gt_0 53 := eq_refl _.
Local Instance Hmax : Prec_lt_emax 53 1024 := eq_refl _.

Definition rnd (x : R) : R := round radix2 (SpecFloat.fexp 53 1024) ZnearestE x.

(** A finite binary64 number. *)
Definition finite64 (f : float) : Prop := valid_binary 53 1024 f = true /\ is_finite_SF f = true.
Definition fval (f : float) : R := SF2R radix2 f.

(** ** Equivalence with Flocq's operations (as in Flocq's PrimFloat.v, which needs primitive floats) *)
Lemma round_nearest_even_equiv s m l :
  round_nearest_even m l = choice_mode mode_NE s m l.
Proof.
  case l; [reflexivity|intro c]. case c; [ | reflexivity..].
  now simpl; unfold Round.cond_incr; case Z.even.
Qed.
Lemma binary_round_aux_equiv sx mx ex lx :
  SpecFloat.binary_round_aux 53 1024 sx mx ex lx
  = BinarySingleNaN.binary_round_aux 53 1024 mode_NE sx mx ex lx.
Proof.
  unfold SpecFloat.binary_round_aux, BinarySingleNaN.binary_round_aux.
  set (mrse' := shr_fexp _ _ _). case mrse'; intros mrs' e'; simpl.
  now rewrite (round_nearest_even_equiv sx).
Qed.
Lemma binary_round_equiv s m e :
  SpecFloat.binary_round 53 1024 s m e = BinarySingleNaN.binary_round 53 1024 mode_NE s m e.
Proof.
  unfold SpecFloat.binary_round, BinarySingleNaN.binary_round, shl_align_fexp.
  set (mez := shl_align _ _ _); case mez as [mz ez]. apply binary_round_aux_equiv.
Qed.
Lemma binary_normalize_equiv m e szero :
  SpecFloat.binary_normalize 53 1024 m e szero
  = B2SF (BinarySingleNaN.binary_normalize 53 1024 Hprec Hmax mode_NE m e szero).
Proof.
  case m as [ | p | p].
  - now simpl.
  - simpl; rewrite B2SF_SF2B; apply binary_round_equiv.
  - simpl; rewrite B2SF_SF2B; apply binary_round_equiv.
Qed.

Notation bin := (binary_float 53 1024).

Lemma fmul_equiv (x y : bin) : fmul (B2SF x) (B2SF y) = B2SF (Bmult mode_NE x y).
Proof.
  unfold fmul, prec, emax.
  destruct x as [sx|sx| |sx mx ex Bx], y as [sy|sy| |sy my ey By]; try reflexivity.
  simpl. rewrite B2SF_SF2B. apply binary_round_aux_equiv.
Qed.
Lemma fadd_equiv (x y : bin) : fadd (B2SF x) (B2SF y) = B2SF (Bplus mode_NE x y).
Proof.
  unfold fadd, prec, emax.
  destruct x as [sx|sx| |sx mx ex Bx], y as [sy|sy| |sy my ey By]; try (now (trivial || simpl; case Bool.eqb)).
  apply binary_normalize_equiv.
Qed.
Lemma fsub_equiv (x y : bin) : fsub (B2SF x) (B2SF y) = B2SF (Bminus mode_NE x y).
Proof.
  unfold fsub, prec, emax.
  destruct x as [sx|sx| |sx mx ex Bx], y as [sy|sy| |sy my ey By]; try (now (trivial || simpl; case Bool.eqb)).
  simpl. unfold Zminus. rewrite <- cond_Zopp_negb. apply binary_normalize_equiv.
Qed.
Lemma fdiv_equiv (x y : bin) : fdiv (B2SF x) (B2SF y) = B2SF (Bdiv mode_NE x y).
Proof.
  unfold fdiv, prec, emax.
  destruct x as [sx|sx| |sx mx ex Bx], y as [sy|sy| |sy my ey By]; try (now (trivial || simpl; case Bool.eqb)).
  simpl. rewrite B2SF_SF2B. set (melz := SFdiv_core_binary _ _ _ _ _ _). case melz as [[mz ez] lz].
  apply binary_round_aux_equiv.
Qed.

(** ** Real meaning *)
Definition big : R := bpow radix2 1024.

Lemma to_bin f : valid_binary 53 1024 f = true -> exists x : bin, B2SF x = f.
Proof. intros H. exists (SF2B f H). apply B2SF_SF2B. Qed.

Lemma fin_bin (x : bin) : is_finite x = true -> finite64 (B2SF x).
Proof. intros H. split; [apply valid_binary_B2SF|]. now rewrite is_finite_SF_B2SF. Qed.
Lemma fval_bin (x : bin) : fval (B2SF x) = B2R x.
Proof. apply SF2R_B2SF. Qed.

Lemma fmul_real a b : finite64 a -> finite64 b -> Rabs (rnd (fval a * fval b)) < big ->
  finite64 (fmul a b) /\ fval (fmul a b) = rnd (fval a * fval b).
Proof.
  intros [Va Fa] [Vb Fb]. destruct (to_bin a Va) as [x <-], (to_bin b Vb) as [y <-].
  rewrite fmul_equiv, !fval_bin. intros HB. generalize (Bmult_correct _ _ _ _ mode_NE x y).
  rewrite Rlt_bool_true by exact HB. intros (H1 & H2 & _). split; [|exact H1].
  apply fin_bin. rewrite H2. rewrite is_finite_SF_B2SF in Fa, Fb. now rewrite Fa, Fb.
Qed.
Lemma fadd_real a b : finite64 a -> finite64 b -> Rabs (rnd (fval a + fval b)) < big ->
  finite64 (fadd a b) /\ fval (fadd a b) = rnd (fval a + fval b).
Proof.
  intros [Va Fa] [Vb Fb]. destruct (to_bin a Va) as [x <-], (to_bin b Vb) as [y <-].
  rewrite is_finite_SF_B2SF in Fa, Fb.
  rewrite fadd_equiv, !fval_bin. intros HB. generalize (Bplus_correct _ _ _ _ mode_NE x y Fa Fb).
  rewrite Rlt_bool_true by exact HB. intros (H1 & H2 & _). split; [now apply fin_bin|exact H1].
Qed.
Lemma fsub_real a b : finite64 a -> finite64 b -> Rabs (rnd (fval a - fval b)) < big ->
  finite64 (fsub a b) /\ fval (fsub a b) = rnd (fval a - fval b).
Proof.
  intros [Va Fa] [Vb Fb]. destruct (to_bin a Va) as [x <-], (to_bin b Vb) as [y <-].
  rewrite is_finite_SF_B2SF in Fa, Fb.
  rewrite fsub_equiv, !fval_bin. intros HB. generalize (Bminus_correct _ _ _ _ mode_NE x y Fa Fb).
  rewrite Rlt_bool_true by exact HB. intros (H1 & H2 & _). split; [now apply fin_bin|exact H1].
Qed.
Lemma fdiv_real a b : finite64 a -> finite64 b -> fval b <> 0 -> Rabs (rnd (fval a / fval b)) < big ->
  finite64 (fdiv a b) /\ fval (fdiv a b) = rnd (fval a / fval b).
Proof.
  intros [Va Fa] [Vb Fb]. destruct (to_bin a Va) as [x <-], (to_bin b Vb) as [y <-].
  rewrite is_finite_SF_B2SF in Fa, Fb.
  rewrite fdiv_equiv, !fval_bin. intros NZ HB. generalize (Bdiv_correct _ _ _ _ mode_NE x y NZ).
  rewrite Rlt_bool_true by exact HB. intros (H1 & H2 & _). split; [apply fin_bin; congruence|exact H1].
Qed.

Lemma norm_real z e : Rabs (rnd (F2R (Float radix2 z e))) < big ->
  finite64 (SpecFloat.binary_normalize 53 1024 z e false) /\
  fval (SpecFloat.binary_normalize 53 1024 z e false) = rnd (F2R (Float radix2 z e)).
Proof.
  intros HB. rewrite binary_normalize_equiv, fval_bin.
  generalize (binary_normalize_correct _ _ Hprec Hmax mode_NE z e false). cbv zeta.
  rewrite Rlt_bool_true by exact HB. intros (H1 & H2 & _). split; [now apply fin_bin|exact H1].
Qed.

Lemma F2R_int z : F2R (Float radix2 z 0) = IZR z.
Proof. unfold F2R. cbn. apply Rmult_1_r. Qed.

Lemma float_of_Z_real z : Rabs (rnd (IZR z)) < big ->
  exists f, float_of_Z z = Ok f /\ finite64 f /\ fval f = rnd (IZR z).
Proof.
  intros HB. rewrite <- F2R_int in HB. destruct (norm_real z 0 HB) as [H1 H2]. rewrite F2R_int in H2.
  exists (SpecFloat.binary_normalize 53 1024 z 0 false). split; [|auto].
  unfold float_of_Z, prec, emax. destruct H1 as [_ F].
  destruct (SpecFloat.binary_normalize 53 1024 z 0 false); try discriminate; reflexivity.
Qed.

(** ** Rounding errors *)
Definition eps : R := / 9007199254740992.          (* 2^-53 *)
Definition eta : R := bpow radix2 (-1075).

Lemma rnd_error x : Rabs (rnd x - x) <= Rabs x * eps + eta.
Proof.
  destruct (error_N_FLT radix2 (-1074) 53 ltac:(lia) (fun n => negb (Z.even n)) x) as (e1 & e2 & H1 & H2 & _ & H4).
  unfold rnd. change (SpecFloat.fexp 53 1024) with (FLT_exp (-1074) 53).
  rewrite H4. replace (x * (1 + e1) + e2 - x) with (x * e1 + e2) by ring.
  eapply Rle_trans; [apply Rabs_triang|]. rewrite Rabs_mult. apply Rplus_le_compat.
  - apply Rmult_le_compat_l; [apply Rabs_pos|]. eapply Rle_trans; [exact H1|]. unfold eps. cbn. lra.
  - eapply Rle_trans; [exact H2|]. unfold eta. replace (-1074)%Z with (-1075 + 1)%Z by lia. rewrite bpow_plus_1. change (IZR radix2) with 2. generalize (bpow radix2 (-1075)). intros b. lra.
Qed.

Lemma eta_pos : 0 < eta.
Proof. apply bpow_gt_0. Qed.
Lemma eta_small : eta <= bpow radix2 (-900) * eps.
Proof.
  unfold eta, eps. replace (/ 9007199254740992) with (bpow radix2 (-53)) by (cbn; lra).
  rewrite <- bpow_plus. apply bpow_le. lia.
Qed.
Lemma eta_tiny : eta <= eps.
Proof.
  unfold eta, eps. replace (/ 9007199254740992) with (bpow radix2 (-53)) by (cbn; lra). apply bpow_le. lia.
Qed.

Lemma rnd_bounded x : Rabs x <= bpow radix2 1000 -> Rabs (rnd x) < big.
Proof.
  intros H. assert (E := rnd_error x).
  assert (HB : bpow radix2 1000 * 4 <= big).
  { unfold big. change 4 with (bpow radix2 2). rewrite <- bpow_plus. apply bpow_le. lia. }
  assert (H1 : 1 <= bpow radix2 1000) by (change 1 with (bpow radix2 0); apply bpow_le; lia).
  assert (T := eta_tiny). unfold eps in *.
  assert (Rabs (rnd x) <= Rabs x + Rabs (rnd x - x)).
  { replace (rnd x) with (x + (rnd x - x)) at 1 by ring. apply Rabs_triang. }
  assert (0 <= Rabs x) by apply Rabs_pos. lra.
Qed.

(** Integers up to 2^53 are exact. *)
Lemma rnd_int z : (Z.abs z <= 2 ^ 53)%Z -> rnd (IZR z) = IZR z.
Proof.
  intros H. unfold rnd. apply round_generic; [typeclasses eauto|].
  change (SpecFloat.fexp 53 1024) with (FLT_exp (-1074) 53).
  destruct (Z.eq_dec (Z.abs z) (2 ^ 53)) as [E|N].
  - apply generic_format_abs_inv. rewrite <- abs_IZR, E. change (IZR (2 ^ 53)) with (bpow radix2 53).
    apply generic_format_bpow. unfold FLT_exp. lia.
  - apply generic_format_FLT. exists (Float radix2 z 0).
    + symmetry. apply F2R_int.
    + cbn [Fnum]. change (Zpower radix2 53) with (2 ^ 53)%Z. lia.
    + cbn. lia.
Qed.

(** ** round() *)
Lemma div_half_even_near m d n : (0 < d)%Z -> (0 <= m)%Z -> (2 * Z.abs (m - n * d) < d)%Z -> div_half_even m d = n.
Proof.
  intros Hd Hm H. unfold div_half_even.
  assert (E := Z.div_mod m d ltac:(lia)). assert (B := Z.mod_pos_bound m d Hd).
  set (q := (m / d)%Z) in *. set (r := (m mod d)%Z) in *.
  assert (m = n * d + (m - n * d))%Z by lia.
  assert (HQ : (q = n \/ q = n - 1)%Z).
  { assert (n - 2 < q)%Z by nia. assert (q < n + 1)%Z by nia. lia. }
  destruct (Z.ltb_spec (2 * r) d), (Z.ltb_spec d (2 * r)); destruct HQ as [HQ|HQ]; try lia; try nia.
Qed.

Lemma py_round_real f n : finite64 f -> Rabs (fval f - IZR n) < / 2 -> py_round (NFlt f) = Ok n.
Proof.
  intros [V F] H. destruct f as [s|s| |s m e]; try discriminate; cbn [py_round].
  - f_equal. unfold fval in H. cbn in H. rewrite Rminus_0_l, Rabs_Ropp, <- abs_IZR in H.
    assert (IZR (Z.abs n) < IZR 1) by lra. apply lt_IZR in H0. lia.
  - f_equal. unfold fval in H. cbn [SF2R] in H. unfold mag_round.
    assert (GOAL : forall k : Z, (0 <= k)%Z -> Rabs (F2R (Float radix2 (Z.pos m) e) - IZR k) < / 2 ->
              (if (0 <=? e)%Z then (Z.pos m * 2 ^ e)%Z else div_half_even (Z.pos m) (2 ^ (- e))) = k).
    { intros k Hk HH. destruct (Z.leb_spec 0 e) as [He|He].
      - unfold F2R in HH. cbn [Fnum Fexp] in HH. rewrite <- IZR_Zpower in HH by assumption.
        rewrite <- mult_IZR, <- minus_IZR, <- abs_IZR in HH. change (Zpower radix2 e) with (2 ^ e)%Z in HH.
        assert (IZR (Z.abs (Z.pos m * 2 ^ e - k)) < IZR 1) by lra. apply lt_IZR in H0. lia.
      - apply div_half_even_near; [apply Z.pow_pos_nonneg; lia|lia|].
        unfold F2R in HH. cbn [Fnum Fexp] in HH.
        assert (P : 0 < bpow radix2 (- e)) by apply bpow_gt_0.
        assert (PI : bpow radix2 e * bpow radix2 (- e) = 1) by (rewrite <- bpow_plus; replace (e + - e)%Z with 0%Z by lia; reflexivity).
        apply (Rmult_lt_compat_r (bpow radix2 (- e))) in HH; [|assumption].
        rewrite <- (Rabs_pos_eq (bpow radix2 (- e))) in HH at 1 by lra. rewrite <- Rabs_mult in HH.
        replace ((IZR (Z.pos m) * bpow radix2 e - IZR k) * bpow radix2 (- e))
          with (IZR (Z.pos m) - IZR k * bpow radix2 (- e)) in HH
          by (transitivity (IZR (Z.pos m) * (bpow radix2 e * bpow radix2 (- e)) - IZR k * bpow radix2 (- e)); [rewrite PI; ring|ring]).
        rewrite <- IZR_Zpower in HH by lia. change (Zpower radix2 (- e)) with (2 ^ (- e))%Z in HH.
        rewrite <- mult_IZR, <- minus_IZR, <- abs_IZR in HH. apply lt_IZR. rewrite mult_IZR. lra. }
    assert (PM : 0 < F2R (Float radix2 (Z.pos m) e)).
    { apply F2R_gt_0. cbn. lia. }
    destruct s; cbn [cond_Zopp] in H; cbn [signed_Z].
    + change (Z.neg m) with (- Z.pos m)%Z in H. rewrite F2R_Zopp in H.
      assert (Hn : (n <= 0)%Z).
      { destruct (Z_le_gt_dec n 0) as [|G]; [assumption|]. exfalso. assert (1 <= IZR n) by (apply IZR_le; lia).
        apply Rabs_def2 in H. lra. }
      rewrite (GOAL (- n)%Z); [lia|lia|]. rewrite opp_IZR.
      rewrite <- Rabs_Ropp. eapply Rle_lt_trans; [|exact H]. right. f_equal. ring.
    + assert (Hn : (0 <= n)%Z).
      { destruct (Z_le_gt_dec 0 n) as [|G]; [assumption|]. exfalso. assert (IZR n <= -1) by (apply IZR_le; lia).
        apply Rabs_def2 in H. lra. }
      now apply GOAL.
Qed.
