(** ConvReal: error analysis of LinearConversion (conversion.py:186-212) in binary64. *)
From Coq Require Import Reals Lra Psatz Floats.SpecFloat.
From Flocq Require Import Core.
From Verif Require Import Base PyNum Conversion FloatReal.
Open Scope R_scope.

(** The real number denoted by a Python number. *)
Definition num_real (n : num) : R := match n with NInt z => IZR z | NFlt f => fval f end.
(** An int, or a finite float. *)
Definition num_finite (n : num) : Prop := match n with NInt _ => True | NFlt f => finite64 f end.

Definition two48 : R := 281474976710656.
Definition two49 : R := 562949953421312.

Lemma bpow49 : bpow radix2 49 = two49.
Proof. reflexivity. Qed.
Lemma bpow48 : bpow radix2 48 = two48.
Proof. reflexivity. Qed.

Lemma Rabs_mult_le a b x y : Rabs a <= x -> Rabs b <= y -> Rabs (a * b) <= x * y.
Proof. intros. rewrite Rabs_mult. apply Rmult_le_compat; auto using Rabs_pos. Qed.
Lemma Rabs_near a b e : Rabs (a - b) <= e -> Rabs a <= Rabs b + e.
Proof. intros. replace a with (b + (a - b)) by ring. eapply Rle_trans; [apply Rabs_triang|]. lra. Qed.

Lemma rnd_near x b s : Rabs x <= b * s -> eta <= s * eps -> Rabs (rnd x - x) <= (b + 1) * s * eps.
Proof.
  intros H1 H2. assert (E := rnd_error x). unfold eps in *.
  assert (Rabs x * / 9007199254740992 <= b * s * / 9007199254740992) by (apply Rmult_le_compat_r; lra). lra.
Qed.

(** The four roundings of a round trip together stay below one half. *)
Lemma round_trip_error r S O T :
  (Rabs r <= two49) -> bpow radix2 (-900) <= Rabs S -> Rabs O <= (two48 + 1) * Rabs S ->
  Rabs (T - S) <= 2 * Rabs S * eps ->
  let p := rnd (r * S) in let y := rnd (p + O) in let d := rnd (y - O) in
  Rabs (p + O) <= (2 * two49) * Rabs S /\
  Rabs (y - O) <= (2 * two49) * Rabs S /\ T <> 0 /\
  Rabs (d / T) <= 2 * two49 /\ Rabs (rnd (d / T) - r) < / 2 /\
  Rabs (p - r * S) <= (Rabs r + 1) * Rabs S * eps.
Proof.
  intros Hr HS HO HT p y d. set (s := Rabs S) in *.
  assert (Hs : 0 < s) by (eapply Rlt_le_trans; [apply bpow_gt_0|exact HS]).
  assert (He : eta <= s * eps).
  { eapply Rle_trans; [apply eta_small|]. apply Rmult_le_compat_r; [unfold eps; lra|assumption]. }
  assert (Hr0 : 0 <= Rabs r) by apply Rabs_pos.
  assert (Hrs : Rabs (r * S) <= Rabs r * s) by (rewrite Rabs_mult; unfold s; lra).
  assert (Hrs' : Rabs r * s <= two49 * s) by (apply Rmult_le_compat_r; lra).
  assert (E1 : Rabs (p - r * S) <= (Rabs r + 1) * s * eps) by (apply rnd_near; assumption).
  assert (E1' : Rabs (p - r * S) <= (two49 + 1) * s * eps).
  { eapply Rle_trans; [exact E1|]. apply Rmult_le_compat_r; [unfold eps; lra|]. apply Rmult_le_compat_r; lra. }
  assert (P : Rabs p <= two49 * s + (two49 + 1) * s * eps) by (eapply Rle_trans; [apply Rabs_near, E1'|]; lra).
  assert (PO : Rabs (p + O) <= (two49 + two48 + 2) * s).
  { eapply Rle_trans; [apply Rabs_triang|]. unfold two48, two49, eps in *. lra. }
  assert (E2 : Rabs (y - (p + O)) <= (two49 + two48 + 2 + 1) * s * eps) by (apply rnd_near; assumption).
  assert (E2' : Rabs ((y - O) - p) <= (two49 + two48 + 2 + 1) * s * eps).
  { replace (y - O - p) with (y - (p + O)) by ring. exact E2. }
  assert (YO : Rabs (y - O) <= (two49 + 1) * s).
  { eapply Rle_trans; [apply Rabs_near, E2'|]. unfold two48, two49, eps in *. lra. }
  assert (E3 : Rabs (d - (y - O)) <= (two49 + 1 + 1) * s * eps) by (apply rnd_near; assumption).
  assert (D : Rabs (d - r * S) <= 7/32 * s + 8 * s * eps).
  { replace (d - r * S) with ((d - (y - O)) + ((y - O - p) + (p - r * S))) by ring.
    eapply Rle_trans; [apply Rabs_triang|]. eapply Rle_trans; [apply Rplus_le_compat_l, Rabs_triang|].
    unfold two48, two49, eps in *. lra. }
  assert (T1 : s * (1 - 2 * eps) <= Rabs T).
  { assert (H := Rabs_near S T (2 * s * eps)). rewrite Rabs_minus_sym in HT. specialize (H HT). fold s in H. lra. }
  assert (HT0 : 0 < Rabs T) by (eapply Rlt_le_trans; [|exact T1]; unfold eps; apply Rmult_lt_0_compat; lra).
  assert (NZ : T <> 0) by (intros ->; rewrite Rabs_R0 in HT0; lra).
  assert (Q : Rabs (d / T - r) <= 3/8).
  { replace (d / T - r) with ((d - r * T) / T) by (field; assumption).
    unfold Rdiv. rewrite Rabs_mult, Rabs_inv. apply (Rmult_le_reg_r (Rabs T)); [assumption|].
    rewrite Rmult_assoc, Rinv_l, Rmult_1_r by lra.
    replace (d - r * T) with ((d - r * S) + r * (S - T)) by ring.
    eapply Rle_trans; [apply Rabs_triang|].
    assert (Rabs (r * (S - T)) <= two49 * (2 * s * eps)) by (apply Rabs_mult_le; [assumption|rewrite Rabs_minus_sym; assumption]).
    unfold two48, two49, eps in *. lra. }
  assert (X : Rabs (d / T) <= two49 + 1) by (eapply Rle_trans; [apply Rabs_near, Q|]; lra).
  assert (E4 := rnd_error (d / T)). assert (TT := eta_tiny).
  split; [unfold two48, two49 in *; lra|]. split; [unfold two48, two49 in *; lra|]. split; [assumption|].
  split; [unfold two49 in *; lra|]. split; [|assumption].
  replace (rnd (d / T) - r) with ((rnd (d / T) - d / T) + (d / T - r)) by ring.
  eapply Rle_lt_trans; [apply Rabs_triang|]. unfold two49, eps in *. lra.
Qed.

(** ** The operations on numbers *)
Lemma rnd_fval f : finite64 f -> rnd (fval f) = fval f.
Proof.
  intros [V F]. destruct (to_bin f V) as [x <-]. rewrite fval_bin. unfold rnd. apply round_generic; [typeclasses eauto|].
  apply BinarySingleNaN.generic_format_B2R.
Qed.
Lemma fval_bounded f : finite64 f -> Rabs (fval f) < big.
Proof. intros [V F]. destruct (to_bin f V) as [x <-]. rewrite fval_bin. apply BinarySingleNaN.abs_B2R_lt_emax. Qed.

Lemma to_float_real n : num_finite n -> Rabs (rnd (num_real n)) < big ->
  exists f, to_float n = Ok f /\ finite64 f /\ fval f = rnd (num_real n).
Proof.
  destruct n as [z|f]; intros HF HB; cbn [num_finite num_real to_float] in *.
  - now apply float_of_Z_real.
  - exists f. rewrite rnd_fval by assumption. auto.
Qed.

Lemma fval_zero f : finite64 f -> fval f <> 0 -> is_zero f = false.
Proof. intros HF HN. destruct f; try reflexivity. exfalso. now apply HN. Qed.

(** raw * scale as it enters the float addition *)
Lemma py_mul_real r n : (Z.abs r <= 2 ^ 53)%Z -> num_finite n -> Rabs (IZR r * num_real n) <= bpow radix2 1000 ->
  exists p, py_mul (NInt r) n = Ok p /\ num_finite p /\ (match n, p with NInt _, NInt _ | NFlt _, NFlt _ => True | _, _ => False end) /\
            rnd (num_real p) = rnd (IZR r * num_real n).
Proof.
  intros Hr HF HB. apply rnd_bounded in HB. destruct n as [s|s].
  - exists (NInt (r * s)). cbn [num_finite num_real]. rewrite mult_IZR. auto.
  - cbn [num_finite num_real] in HF, HB. destruct (float_of_Z_real r) as (fr & E1 & E2 & E3).
    { rewrite rnd_int by assumption. rewrite <- abs_IZR. apply Rle_lt_trans with (IZR (2 ^ 53)); [now apply IZR_le|].
      change (IZR (2 ^ 53)) with (bpow radix2 53). unfold big. apply bpow_lt. lia. }
    rewrite rnd_int in E3 by assumption.
    destruct (fmul_real fr s E2 HF) as [F1 F2]; [now rewrite E3|].
    exists (NFlt (fmul fr s)). cbn [num_finite num_real]. unfold py_mul, py_arith, to_float. rewrite E1. cbn [bind].
    split; [reflexivity|]. split; [assumption|]. split; [trivial|].
    rewrite (rnd_fval _ F1), F2, E3. reflexivity.
Qed.

Lemma py_addsub_real (add : bool) a b fa fb :
  (match a, b with NInt _, NInt _ => False | _, _ => True end) ->
  to_float a = Ok fa -> to_float b = Ok fb -> finite64 fa -> finite64 fb ->
  Rabs (if add then fval fa + fval fb else fval fa - fval fb) <= bpow radix2 1000 ->
  exists f, (if add then py_add else py_sub) a b = Ok (NFlt f) /\ finite64 f /\
            fval f = rnd (if add then fval fa + fval fb else fval fa - fval fb).
Proof.
  intros HN Ha Hb Fa Fb HB. apply rnd_bounded in HB. destruct add.
  - destruct (fadd_real fa fb Fa Fb HB) as [F1 F2]. exists (fadd fa fb). split; [|auto].
    unfold py_add, py_arith. rewrite Ha, Hb. destruct a, b; try contradiction; reflexivity.
  - destruct (fsub_real fa fb Fa Fb HB) as [F1 F2]. exists (fsub fa fb). split; [|auto].
    unfold py_sub, py_arith. rewrite Ha, Hb. destruct a, b; try contradiction; reflexivity.
Qed.

Definition two_ints (a b : num) : Prop := match a, b with NInt _, NInt _ => True | _, _ => False end.

Lemma linear_round_trip S O r :
  num_finite S -> num_finite O -> ~ two_ints S O ->
  bpow radix2 (-900) <= Rabs (num_real S) <= bpow radix2 900 ->
  Rabs (num_real O) <= two48 * Rabs (num_real S) ->
  (Z.abs r <= 2 ^ 49)%Z ->
  exists f, nc_raw_to_scaled (CLin S O false) (NInt r) = Ok (NFlt f) /\ finite64 f /\
    nc_numeric_scaled_to_raw (CLin S O false) (NFlt f) = Ok (NInt r) /\
    Rabs (fval f - (IZR r * num_real S + num_real O))
      <= 4 * (Rabs (IZR r * num_real S) + Rabs (num_real O) + Rabs (num_real S)) * eps.
Proof.
  intros FS FO NI [S1 S2] HO Hr. set (SR := num_real S) in *. set (OR := num_real O) in *. set (s := Rabs SR) in *.
  assert (Hs : 0 < s) by (eapply Rlt_le_trans; [apply bpow_gt_0|exact S1]).
  assert (B900 : bpow radix2 900 * (8 * two49) <= bpow radix2 1000).
  { replace (8 * two49) with (bpow radix2 52) by (unfold two49; cbn; lra). rewrite <- bpow_plus. apply bpow_le. lia. }
  assert (HRr : Rabs (IZR r) <= two49) by (rewrite <- abs_IZR; apply IZR_le in Hr; exact Hr).
  assert (Hrs : Rabs (IZR r * SR) <= two49 * s) by (apply Rabs_mult_le; [assumption|unfold s; lra]).
  assert (He : eta <= s * eps).
  { eapply Rle_trans; [apply eta_small|]. apply Rmult_le_compat_r; [unfold eps; lra|assumption]. }
  (* the offset as a float *)
  destruct (to_float_real O FO) as (fo & O1 & O2 & O3).
  { apply rnd_bounded. fold OR. unfold two48, two49 in *. lra. }
  fold OR in O3.
  assert (EO : Rabs (fval fo - OR) <= Rabs OR * eps + eta) by (rewrite O3; apply rnd_error).
  assert (HO' : Rabs (fval fo) <= (two48 + 1) * s).
  { eapply Rle_trans; [apply Rabs_near, EO|]. unfold two48, eps in *. lra. }
  (* the scale as a float *)
  destruct (to_float_real S FS) as (fs & T1 & T2 & T3).
  { apply rnd_bounded. fold SR. fold s. unfold two48, two49 in *. lra. }
  fold SR in T3.
  assert (ET : Rabs (fval fs - SR) <= 2 * s * eps).
  { rewrite T3. assert (E := rnd_error SR). fold s in E. lra. }
  destruct (round_trip_error (IZR r) SR (fval fo) (fval fs) HRr S1 HO' ET) as (Y1 & Y2 & Y3 & Y4 & Y5 & Y6).
  fold s in Y1, Y2, Y6.
  (* product *)
  destruct (py_mul_real r S) as (p & P1 & P2 & P3 & P4); [lia|assumption| | ].
  { fold SR. unfold two49 in *. lra. }
  fold SR in P4.
  destruct (to_float_real p P2) as (fp & Q1 & Q2 & Q3).
  { rewrite P4. apply rnd_bounded. unfold two49 in *. lra. }
  rewrite P4 in Q3.
  (* sum *)
  destruct (py_addsub_real true p O fp fo) as (y & A1 & A2 & A3); try assumption.
  { destruct p, O; try exact I. destruct S; [now apply NI|contradiction]. }
  { rewrite Q3. unfold two49 in *. lra. }
  exists y. split; [cbn [nc_raw_to_scaled]; rewrite P1; cbn [bind]; exact A1|]. split; [assumption|]. split.
  - (* difference *)
    destruct (py_addsub_real false (NFlt y) O y fo) as (d & D1 & D2 & D3); try assumption; try exact I; try reflexivity.
    { rewrite A3, Q3. unfold two49 in *. lra. }
    destruct (fdiv_real d fs D2 T2 Y3) as [X1 X2].
    { apply rnd_bounded. rewrite D3, A3, Q3. eapply Rle_trans; [exact Y4|].
      change (2 * two49) with (2 * IZR (2 ^ 49)). rewrite <- mult_IZR. change (IZR (2 * 2 ^ 49)) with (bpow radix2 50). apply bpow_le. lia. }
    cbn [nc_numeric_scaled_to_raw]. rewrite D1. cbn [bind].
    unfold py_truediv. rewrite T1. cbn [to_float bind]. rewrite (fval_zero fs T2 Y3). cbn [bind].
    rewrite (py_round_real (fdiv d fs) r X1); [reflexivity|]. rewrite X2, D3, A3, Q3. exact Y5.
  - rewrite A3, Q3. set (pp := rnd (IZR r * SR)) in *.
    assert (Z1 := rnd_error (pp + fval fo)).
    assert (Z2 : Rabs (pp + fval fo) <= Rabs (IZR r * SR) + (Rabs (IZR r) + 1) * s * eps + (Rabs OR + (Rabs OR * eps + eta))).
    { eapply Rle_trans; [apply Rabs_triang|]. apply Rplus_le_compat; apply Rabs_near; assumption. }
    replace (rnd (pp + fval fo) - (IZR r * SR + OR))
      with ((rnd (pp + fval fo) - (pp + fval fo)) + ((pp - IZR r * SR) + (fval fo - OR))) by ring.
    eapply Rle_trans; [apply Rabs_triang|]. eapply Rle_trans; [apply Rplus_le_compat_l, Rabs_triang|].
    assert (RS : Rabs (IZR r) * s = Rabs (IZR r * SR)) by (rewrite Rabs_mult; reflexivity).
    assert (W : 0 <= Rabs (IZR r * SR)) by apply Rabs_pos. assert (W' : 0 <= Rabs OR) by apply Rabs_pos.
    rewrite Rmult_plus_distr_r, RS in Y6, Z2. rewrite Rmult_1_l in Y6, Z2. unfold eps in *. lra.
Qed.
