(** FloatReal32: the operations of C's float in CFloat32 compute the rounded real results, as FloatReal for double. *)
From Coq Require Import Reals Lra Psatz Floats.SpecFloat.
From Flocq Require Import Core Relative BinarySingleNaN.
From Verif Require Import Base PyNum CFloat32 FloatReal.
Open Scope R_scope.

Local Instance Hprec32 : FLX.Prec_gt_0 24 := eq_refl _.
Local Instance Hmax32 : Prec_lt_emax 24 128 := eq_refl _.

Definition rnd32 (x : R) : R := round radix2 (SpecFloat.fexp 24 128) ZnearestE x.

(** A finite binary32 number. *)
Definition finite32 (f : float) : Prop := valid_binary 24 128 f = true /\ is_finite_SF f = true.

(** ** Equivalence with Flocq's operations (as in Flocq's PrimFloat.v, which needs primitive floats) *)
Lemma binary_round_aux_equiv32 sx mx ex lx :
  SpecFloat.binary_round_aux 24 128 sx mx ex lx
  = BinarySingleNaN.binary_round_aux 24 128 mode_NE sx mx ex lx.
Proof.
  unfold SpecFloat.binary_round_aux, BinarySingleNaN.binary_round_aux.
  set (mrse' := shr_fexp _ _ _). case mrse'; intros mrs' e'; simpl.
  now rewrite (round_nearest_even_equiv sx).
Qed.
Lemma binary_round_equiv32 s m e :
  SpecFloat.binary_round 24 128 s m e = BinarySingleNaN.binary_round 24 128 mode_NE s m e.
Proof.
  unfold SpecFloat.binary_round, BinarySingleNaN.binary_round, shl_align_fexp.
  set (mez := shl_align _ _ _); case mez as [mz ez]. apply binary_round_aux_equiv32.
Qed.
Lemma binary_normalize_equiv32 m e szero :
  SpecFloat.binary_normalize 24 128 m e szero
  = B2SF (BinarySingleNaN.binary_normalize 24 128 Hprec32 Hmax32 mode_NE m e szero).
Proof.
  case m as [ | p | p].
  - now simpl.
  - simpl; rewrite B2SF_SF2B; apply binary_round_equiv32.
  - simpl; rewrite B2SF_SF2B; apply binary_round_equiv32.
Qed.

Notation bin32 := (binary_float 24 128).

Lemma smul_equiv (x y : bin32) : smul (B2SF x) (B2SF y) = B2SF (Bmult mode_NE x y).
Proof.
  unfold smul.
  destruct x as [sx|sx| |sx mx ex Bx], y as [sy|sy| |sy my ey By]; try reflexivity.
  simpl. rewrite B2SF_SF2B. apply binary_round_aux_equiv32.
Qed.
Lemma sadd_equiv (x y : bin32) : sadd (B2SF x) (B2SF y) = B2SF (Bplus mode_NE x y).
Proof.
  unfold sadd.
  destruct x as [sx|sx| |sx mx ex Bx], y as [sy|sy| |sy my ey By]; try (now (trivial || simpl; case Bool.eqb)).
  apply binary_normalize_equiv32.
Qed.
Lemma ssub_equiv (x y : bin32) : ssub (B2SF x) (B2SF y) = B2SF (Bminus mode_NE x y).
Proof.
  unfold ssub.
  destruct x as [sx|sx| |sx mx ex Bx], y as [sy|sy| |sy my ey By]; try (now (trivial || simpl; case Bool.eqb)).
  simpl. unfold Zminus. rewrite <- cond_Zopp_negb. apply binary_normalize_equiv32.
Qed.
Lemma sdiv_equiv (x y : bin32) : sdiv (B2SF x) (B2SF y) = B2SF (Bdiv mode_NE x y).
Proof.
  unfold sdiv.
  destruct x as [sx|sx| |sx mx ex Bx], y as [sy|sy| |sy my ey By]; try (now (trivial || simpl; case Bool.eqb)).
  simpl. rewrite B2SF_SF2B. set (melz := SFdiv_core_binary _ _ _ _ _ _). case melz as [[mz ez] lz].
  apply binary_round_aux_equiv32.
Qed.

(** ** Real meaning *)
Definition big32 : R := bpow radix2 128.

Lemma to_bin32 f : valid_binary 24 128 f = true -> exists x : bin32, B2SF x = f.
Proof. intros H. exists (SF2B f H). apply B2SF_SF2B. Qed.

Lemma fin_bin32 (x : bin32) : is_finite x = true -> finite32 (B2SF x).
Proof. intros H. split; [apply valid_binary_B2SF|]. now rewrite is_finite_SF_B2SF. Qed.
Lemma fval_bin32 (x : bin32) : fval (B2SF x) = B2R x.
Proof. apply SF2R_B2SF. Qed.

Lemma smul_real a b : finite32 a -> finite32 b -> Rabs (rnd32 (fval a * fval b)) < big32 ->
  finite32 (smul a b) /\ fval (smul a b) = rnd32 (fval a * fval b).
Proof.
  intros [Va Fa] [Vb Fb]. destruct (to_bin32 a Va) as [x <-], (to_bin32 b Vb) as [y <-].
  rewrite smul_equiv, !fval_bin32. intros HB. generalize (Bmult_correct _ _ _ _ mode_NE x y).
  rewrite Rlt_bool_true by exact HB. intros (H1 & H2 & _). split; [|exact H1].
  apply fin_bin32. rewrite H2. rewrite is_finite_SF_B2SF in Fa, Fb. now rewrite Fa, Fb.
Qed.
Lemma sadd_real a b : finite32 a -> finite32 b -> Rabs (rnd32 (fval a + fval b)) < big32 ->
  finite32 (sadd a b) /\ fval (sadd a b) = rnd32 (fval a + fval b).
Proof.
  intros [Va Fa] [Vb Fb]. destruct (to_bin32 a Va) as [x <-], (to_bin32 b Vb) as [y <-].
  rewrite is_finite_SF_B2SF in Fa, Fb.
  rewrite sadd_equiv, !fval_bin32. intros HB. generalize (Bplus_correct _ _ _ _ mode_NE x y Fa Fb).
  rewrite Rlt_bool_true by exact HB. intros (H1 & H2 & _). split; [now apply fin_bin32|exact H1].
Qed.
Lemma ssub_real a b : finite32 a -> finite32 b -> Rabs (rnd32 (fval a - fval b)) < big32 ->
  finite32 (ssub a b) /\ fval (ssub a b) = rnd32 (fval a - fval b).
Proof.
  intros [Va Fa] [Vb Fb]. destruct (to_bin32 a Va) as [x <-], (to_bin32 b Vb) as [y <-].
  rewrite is_finite_SF_B2SF in Fa, Fb.
  rewrite ssub_equiv, !fval_bin32. intros HB. generalize (Bminus_correct _ _ _ _ mode_NE x y Fa Fb).
  rewrite Rlt_bool_true by exact HB. intros (H1 & H2 & _). split; [now apply fin_bin32|exact H1].
Qed.
Lemma sdiv_real a b : finite32 a -> finite32 b -> fval b <> 0 -> Rabs (rnd32 (fval a / fval b)) < big32 ->
  finite32 (sdiv a b) /\ fval (sdiv a b) = rnd32 (fval a / fval b).
Proof.
  intros [Va Fa] [Vb Fb]. destruct (to_bin32 a Va) as [x <-], (to_bin32 b Vb) as [y <-].
  rewrite is_finite_SF_B2SF in Fa, Fb.
  rewrite sdiv_equiv, !fval_bin32. intros NZ HB. generalize (Bdiv_correct _ _ _ _ mode_NE x y NZ).
  rewrite Rlt_bool_true by exact HB. intros (H1 & H2 & _). split; [apply fin_bin32; congruence|exact H1].
Qed.

Lemma norm_real32 z e : Rabs (rnd32 (F2R (Float radix2 z e))) < big32 ->
  finite32 (SpecFloat.binary_normalize 24 128 z e false) /\
  fval (SpecFloat.binary_normalize 24 128 z e false) = rnd32 (F2R (Float radix2 z e)).
Proof.
  intros HB. rewrite binary_normalize_equiv32, fval_bin32.
  generalize (binary_normalize_correct _ _ Hprec32 Hmax32 mode_NE z e false). cbv zeta.
  rewrite Rlt_bool_true by exact HB. intros (H1 & H2 & _). split; [now apply fin_bin32|exact H1].
Qed.

Lemma single_of_Z_real z : Rabs (rnd32 (IZR z)) < big32 ->
  exists f, single_of_Z z = Some f /\ finite32 f /\ fval f = rnd32 (IZR z).
Proof.
  intros HB. rewrite <- F2R_int in HB. destruct (norm_real32 z 0 HB) as [H1 H2]. rewrite F2R_int in H2.
  exists (SpecFloat.binary_normalize 24 128 z 0 false). split; [|auto].
  unfold single_of_Z. destruct H1 as [_ F].
  destruct (SpecFloat.binary_normalize 24 128 z 0 false); try discriminate; reflexivity.
Qed.

(** ** Rounding errors *)
Definition eps32 : R := / 16777216.          (* 2^-24 *)
Definition eta32 : R := bpow radix2 (-150).

Lemma rnd_error32 x : Rabs (rnd32 x - x) <= Rabs x * eps32 + eta32.
Proof.
  destruct (error_N_FLT radix2 (-149) 24 ltac:(lia) (fun n => negb (Z.even n)) x) as (e1 & e2 & H1 & H2 & _ & H4).
  unfold rnd32. change (SpecFloat.fexp 24 128) with (FLT_exp (-149) 24).
  rewrite H4. replace (x * (1 + e1) + e2 - x) with (x * e1 + e2) by ring.
  eapply Rle_trans; [apply Rabs_triang|]. rewrite Rabs_mult. apply Rplus_le_compat.
  - apply Rmult_le_compat_l; [apply Rabs_pos|]. eapply Rle_trans; [exact H1|]. unfold eps32. cbn. lra.
  - eapply Rle_trans; [exact H2|]. unfold eta32. replace (-149)%Z with (-150 + 1)%Z by lia. rewrite bpow_plus_1. change (IZR radix2) with 2. generalize (bpow radix2 (-150)). intros b. lra.
Qed.

Lemma eta_pos32 : 0 < eta32.
Proof. apply bpow_gt_0. Qed.
Lemma eta_small32 : eta32 <= bpow radix2 (-100) * eps32.
Proof.
  unfold eta32, eps32. replace (/ 16777216) with (bpow radix2 (-24)) by (cbn; lra).
  rewrite <- bpow_plus. apply bpow_le. lia.
Qed.
Lemma eta_tiny32 : eta32 <= eps32.
Proof.
  unfold eta32, eps32. replace (/ 16777216) with (bpow radix2 (-24)) by (cbn; lra). apply bpow_le. lia.
Qed.

Lemma rnd_bounded32 x : Rabs x <= bpow radix2 120 -> Rabs (rnd32 x) < big32.
Proof.
  intros H. assert (E := rnd_error32 x).
  assert (HB : bpow radix2 120 * 4 <= big32).
  { unfold big32. change 4 with (bpow radix2 2). rewrite <- bpow_plus. apply bpow_le. lia. }
  assert (H1 : 1 <= bpow radix2 120) by (change 1 with (bpow radix2 0); apply bpow_le; lia).
  assert (T := eta_tiny32). unfold eps32 in *.
  assert (Rabs (rnd32 x) <= Rabs x + Rabs (rnd32 x - x)).
  { replace (rnd32 x) with (x + (rnd32 x - x)) at 1 by ring. apply Rabs_triang. }
  assert (0 <= Rabs x) by apply Rabs_pos. lra.
Qed.

(** Integers up to 2^24 are exact. *)
Lemma rnd_int32 z : (Z.abs z <= 2 ^ 24)%Z -> rnd32 (IZR z) = IZR z.
Proof.
  intros H. unfold rnd32. apply round_generic; [typeclasses eauto|].
  change (SpecFloat.fexp 24 128) with (FLT_exp (-149) 24).
  destruct (Z.eq_dec (Z.abs z) (2 ^ 24)) as [E|N].
  - apply generic_format_abs_inv. rewrite <- abs_IZR, E. change (IZR (2 ^ 24)) with (bpow radix2 24).
    apply generic_format_bpow. unfold FLT_exp. lia.
  - apply generic_format_FLT. exists (Float radix2 z 0).
    + symmetry. apply F2R_int.
    + cbn [Fnum]. change (Zpower radix2 24) with (2 ^ 24)%Z. lia.
    + cbn. lia.
Qed.

