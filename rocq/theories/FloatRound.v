(** FloatRound: exactness of rounding for representable numbers, and the IEEE pack/unpack round trip
    (integer proofs, no reals). *)
From Coq Require Import Floats.SpecFloat.
From Verif Require Import Base PyNum BitsLemmas FloatBits.
Ltac Zify.zify_post_hook ::= Z.div_mod_to_equations.

Lemma digits2_unique m d : 2 ^ (d - 1) <= Z.pos m < 2 ^ d -> Z.pos (digits2_pos m) = d.
Proof.
  intros H. assert (B := digits2_pos_bound m).
  assert (0 < d). { destruct (Z.le_gt_cases d 0); [|lia]. assert (2 ^ d <= 2 ^ 0) by (apply Z.pow_le_mono_r; lia). change (2 ^ 0) with 1 in *. lia. }
  destruct (Z.lt_trichotomy (Z.pos (digits2_pos m)) d) as [L|[E|L]]; [|assumption|]; exfalso.
  - assert (2 ^ Z.pos (digits2_pos m) <= 2 ^ (d - 1)) by (apply Z.pow_le_mono_r; lia). lia.
  - assert (2 ^ d <= 2 ^ (Z.pos (digits2_pos m) - 1)) by (apply Z.pow_le_mono_r; lia). lia.
Qed.

Lemma digits_mul m m' k : 0 <= k -> Z.pos m' = Z.pos m * 2 ^ k -> Z.pos (digits2_pos m') = Z.pos (digits2_pos m) + k.
Proof.
  intros Hk E. apply digits2_unique. rewrite E. assert (B := digits2_pos_bound m).
  assert (0 < 2 ^ k) by (apply Z.pow_pos_nonneg; lia).
  replace (Z.pos (digits2_pos m) + k - 1) with (Z.pos (digits2_pos m) - 1 + k) by lia.
  rewrite !Z.pow_add_r by lia. nia.
Qed.

Lemma digits_le m P : 0 <= P -> Z.pos m < 2 ^ P -> Z.pos (digits2_pos m) <= P.
Proof.
  intros HP H. assert (B := digits2_pos_bound m).
  destruct (Z.le_gt_cases (Z.pos (digits2_pos m)) P); [assumption|].
  assert (2 ^ P <= 2 ^ (Z.pos (digits2_pos m) - 1)) by (apply Z.pow_le_mono_r; lia). lia.
Qed.

Lemma shr_1_exact m m' : 0 <= m -> m' = 2 * m ->
  shr_1 (Build_shr_record m' false false) = Build_shr_record m false false.
Proof. intros Hm ->. destruct m as [|p|p]; [reflexivity|reflexivity|lia]. Qed.

Lemma iter_shr_exact k : forall m m', 0 <= m -> m' = m * 2 ^ Z.pos k ->
  SpecFloat.iter_pos shr_1 k (Build_shr_record m' false false) = Build_shr_record m false false.
Proof.
  induction k as [k IH|k IH|]; intros m m' Hm E; cbn [SpecFloat.iter_pos].
  - change (Z.pos k~1) with (1 + 2 * Z.pos k) in E. rewrite Z.pow_add_r in E by lia.
    replace (2 * Z.pos k) with (Z.pos k + Z.pos k) in E by lia. rewrite Z.pow_add_r in E by lia.
    assert (0 < 2 ^ Z.pos k) by lia.
    rewrite (shr_1_exact (m * 2 ^ Z.pos k * 2 ^ Z.pos k)) by nia.
    rewrite (IH (m * 2 ^ Z.pos k)) by nia. now apply IH.
  - change (Z.pos k~0) with (2 * Z.pos k) in E.
    replace (2 * Z.pos k) with (Z.pos k + Z.pos k) in E by lia. rewrite Z.pow_add_r in E by lia.
    assert (0 < 2 ^ Z.pos k) by lia.
    rewrite (IH (m * 2 ^ Z.pos k)) by nia. now apply IH.
  - apply shr_1_exact; [assumption|]. change (2 ^ 1) with 2 in E. lia.
Qed.

(** Rounding is exact when the value is a multiple of the target exponent. *)
Lemma shr_fexp_exact P E m mp e ex :
  ex = fexp P E (Z.pos (digits2_pos m) + e) ->
  e <= ex -> Z.pos m = Z.pos mp * 2 ^ (ex - e) ->
  shr_fexp P E (Z.pos m) e loc_Exact = (Build_shr_record (Z.pos mp) false false, ex).
Proof.
  intros Hx He Em. unfold shr_fexp, shr. cbn [Zdigits2 shr_record_of_loc]. rewrite <- Hx.
  destruct (ex - e) as [|k|k] eqn:Ek; [| |lia].
  - change (2 ^ 0) with 1 in Em. replace (Z.pos mp) with (Z.pos m) by lia. f_equal. lia.
  - f_equal; [|lia]. apply iter_shr_exact; [lia|assumption].
Qed.

Lemma binary_round_exact P E s m mp e ex :
  ex = fexp P E (Z.pos (digits2_pos m) + e) -> ex <= E - P ->
  (ex <= e /\ Z.pos mp = Z.pos m * 2 ^ (e - ex)) \/ (e <= ex /\ Z.pos m = Z.pos mp * 2 ^ (ex - e)) ->
  binary_round P E s m e = S754_finite s mp ex.
Proof.
  intros Hx HE H. unfold binary_round, shl_align. rewrite <- Hx.
  assert (AUX : forall m0 e0, e0 <= ex -> Z.pos m0 = Z.pos mp * 2 ^ (ex - e0) ->
            Z.pos (digits2_pos m0) + e0 = Z.pos (digits2_pos m) + e ->
            binary_round_aux P E s (Z.pos m0) e0 loc_Exact = S754_finite s mp ex).
  { intros m0 e0 L Em0 D. unfold binary_round_aux.
    rewrite (shr_fexp_exact P E m0 mp e0 ex) by (rewrite ?D; assumption).
    cbn [shr_m loc_of_shr_record round_nearest_even].
    assert (Dp : Z.pos (digits2_pos mp) + ex = Z.pos (digits2_pos m0) + e0).
    { rewrite (digits_mul mp m0 (ex - e0)) by (auto; lia). lia. }
    rewrite (shr_fexp_exact P E mp mp ex ex).
    - cbn [shr_m]. now rewrite (proj2 (Z.leb_le _ _) HE).
    - rewrite Dp, D. assumption.
    - lia.
    - rewrite Z.sub_diag. change (2 ^ 0) with 1. lia. }
  destruct (ex - e) as [|k|k] eqn:Ek.
  - apply AUX; [lia| |reflexivity]. rewrite Ek. change (2 ^ 0) with 1. destruct H as [[H1 H2]|[H1 H2]].
    + replace (e - ex) with 0 in H2 by lia. change (2 ^ 0) with 1 in H2. lia.
    + change (2 ^ 0) with 1 in H2. lia.
  - destruct H as [[H1 _]|[H1 H2]]; [lia|]. apply AUX; [lia|rewrite Ek; assumption|reflexivity].
  - destruct H as [[H1 H2]|[H1 _]]; [|lia].
    assert (ES : Z.pos (shift_pos k m) = Z.pos m * 2 ^ Z.pos k).
    { rewrite shift_pos_correct. change (Z.pow_pos 2 k) with (2 ^ Z.pos k). lia. }
    apply AUX; [lia| |].
    + rewrite ES, Z.sub_diag. change (2 ^ 0) with 1. replace (Z.pos k) with (e - ex) by lia. lia.
    + rewrite (digits_mul m _ (Z.pos k) ltac:(lia) ES). lia.
Qed.

(** ** struct.unpack then struct.pack *)

(** Bit pattern [x] of an [n] bit float is a NaN. *)
Definition nan_bits (n x : Z) : Prop :=
  (x / 2 ^ (ieee_prec n - 1)) mod 2 ^ (n - ieee_prec n) = 2 ^ (n - ieee_prec n) - 1 /\
  x mod 2 ^ (ieee_prec n - 1) <> 0.

Lemma ieee_params2 n : float_size_ok n = true ->
  2 <= ieee_prec n <= 53 /\ 8 <= ieee_emax n /\ 2 <= n - ieee_prec n /\
  2 ^ (n - ieee_prec n) = 2 * ieee_emax n /\
  ieee_emax n - ieee_prec n + 1 <= 1024 - 53 + 1 /\ 3 - 1024 - 53 <= ieee_emin n /\ ieee_prec n < ieee_emax n /\
  ieee_emax n <= 1024 /\
  2 ^ ieee_prec n = 2 * 2 ^ (ieee_prec n - 1).
Proof.
  unfold float_size_ok. intros Hn.
  assert (n = 16 \/ n = 32 \/ n = 64) as [->|[->| ->]] by lia; vm_compute; repeat split; congruence.
Qed.

(** The canonical numbers of a format survive widening to binary64 and narrowing back. *)
Lemma widen_narrow n s p q :
  float_size_ok n = true -> Z.pos p < 2 ^ ieee_prec n ->
  q = fexp (ieee_prec n) (ieee_emax n) (Z.pos (digits2_pos p) + q) -> q <= ieee_emax n - ieee_prec n ->
  narrow n (binary_round prec emax s p q) = S754_finite s p q.
Proof.
  intros Hn Hp Hq HQ. destruct (ieee_params2 n Hn) as (A1 & A2 & A3 & A4 & A5 & A6 & A7 & A7' & A8).
  assert (D := digits_le p (ieee_prec n) ltac:(lia) Hp).
  assert (DP : 0 < Z.pos (digits2_pos p)) by lia.
  set (ex := fexp prec emax (Z.pos (digits2_pos p) + q)).
  assert (QE : ieee_emin n <= q). { rewrite Hq. unfold fexp, SpecFloat.emin, ieee_emin. lia. }
  assert (HX : ex <= q). { unfold ex, fexp, SpecFloat.emin, prec, emax. lia. }
  assert (PM : exists mp, Z.pos mp = Z.pos p * 2 ^ (q - ex)).
  { assert (0 < 2 ^ (q - ex)) by (apply Z.pow_pos_nonneg; lia).
    exists (Z.to_pos (Z.pos p * 2 ^ (q - ex))). rewrite Z2Pos.id; [reflexivity|nia]. }
  destruct PM as [mp EM].
  rewrite (binary_round_exact prec emax s p mp q ex eq_refl).
  - cbn [narrow]. apply binary_round_exact.
    + assert (DM : Z.pos (digits2_pos mp) = Z.pos (digits2_pos p) + (q - ex)) by (apply digits_mul; [lia|assumption]).
      replace (Z.pos (digits2_pos mp) + ex) with (Z.pos (digits2_pos p) + q) by lia. assumption.
    + lia.
    + right. split; [lia|assumption].
  - unfold ex, fexp, SpecFloat.emin, prec, emax. lia.
  - left. split; [assumption|assumption].
Qed.

Lemma binary_round_fin s p q : binary_round prec emax s p q <> S754_nan.
Proof.
  unfold binary_round. destruct (shl_align _ _ _) as [mz ez]. unfold binary_round_aux.
  destruct (shr_fexp _ _ _ _ _) as [r e'] eqn:E1. destruct (shr_fexp_spec _ _ (Z.pos mz) _ _ _ _ ltac:(lia) E1) as [H1 _].
  destruct (shr_fexp _ _ _ e' loc_Exact) as [r2 e2] eqn:E2.
  destruct (shr_fexp_spec _ _ _ _ _ _ _ (round_nearest_even_nonneg _ _ H1) E2) as [H2 _].
  destruct (shr_m r2); [discriminate| |lia]. destruct (_ <=? _); discriminate.
Qed.

Ltac Zify.zify_post_hook ::= idtac.
Theorem float_bits_round n x :
  float_size_ok n = true -> 0 <= x < 2 ^ n -> ~ nan_bits n x ->
  float_to_bits n (NFlt (bits_to_float n x)) = Ok x.
Proof.
  intros Hn Hx HN. destruct (ieee_params n Hn) as (H1 & H2 & H3 & H4 & H5 & H6 & H7 & H8).
  destruct (ieee_params2 n Hn) as (A1 & A2 & A3 & A4 & A5 & A6 & A7 & A7' & A8).
  set (P1 := 2 ^ (ieee_prec n - 1)) in *. set (EW := 2 ^ (n - ieee_prec n)) in *.
  assert (HP1 : 0 < P1) by (apply Z.pow_pos_nonneg; lia).
  (* split x into sign, exponent, fraction *)
  set (sg := x / 2 ^ (n - 1)). set (ex := (x / P1) mod EW). set (fr := x mod P1).
  assert (HS : Z.testbit x (n - 1) = (sg =? 1)).
  { rewrite Z.testbit_eqb by lia. fold sg. assert (0 <= sg < 2).
    { unfold sg. split; [apply Z.div_pos; lia|]. apply Z.div_lt_upper_bound; lia. }
    destruct (Z.eqb_spec sg 1) as [->|]; [reflexivity|]. replace sg with 0 by lia. reflexivity. }
  assert (HX : x = (if sg =? 1 then 2 ^ (n - 1) else 0) + ex * P1 + fr).
  { assert (Hsg : 0 <= sg < 2).
    { unfold sg. split; [apply Z.div_pos; lia|]. apply Z.div_lt_upper_bound; lia. }
    assert (E1 : x = P1 * (x / P1) + fr) by (apply Z.div_mod; lia).
    assert (E2 : x / P1 = EW * (x / P1 / EW) + ex) by (apply Z.div_mod; lia).
    assert (E3 : x / P1 / EW = sg).
    { unfold sg. rewrite Z.div_div by lia. rewrite H7, H4. f_equal. lia. }
    rewrite E3 in E2. rewrite E2 in E1. rewrite H7, <- H4. clearbody sg ex fr. clear E2 E3.
    rewrite E1. destruct (Z.eqb_spec sg 1) as [->|NE]; [ring|]. replace sg with 0 by lia. ring. }
  assert (Hex : 0 <= ex < EW) by (apply Z.mod_pos_bound; lia).
  assert (Hfr : 0 <= fr < P1) by (apply Z.mod_pos_bound; lia).
  unfold float_to_bits, bits_to_float. fold P1 EW. fold ex fr. cbn [to_float bind].
  unfold nan_bits in HN. fold P1 EW in HN. fold ex fr in HN.
  rewrite HS. set (s := sg =? 1) in *. clearbody sg ex fr.
  destruct (Z.eqb_spec ex (EW - 1)) as [EI|NI].
  - destruct (Z.eqb_spec fr 0) as [F0|]; [|exfalso; tauto]. cbn [narrow is_inf negb andb].
    unfold ieee_bits. fold P1 EW. f_equal. rewrite HX, EI, F0. fold s. lia.
  - set (m := if ex =? 0 then fr else P1 + fr). set (e := if ex =? 0 then ieee_emin n else ex - 1 + ieee_emin n).
    assert (Hm : 0 <= m < 2 * P1) by (unfold m; destruct (ex =? 0); lia).
    destruct m as [|p|p] eqn:EM; [| |lia].
    + cbn [narrow is_inf negb andb]. unfold ieee_bits. f_equal. rewrite HX. fold s.
      unfold m in EM. destruct (Z.eqb_spec ex 0) as [E0|]; [|lia]. rewrite E0, EM. lia.
    + assert (CAN : e = fexp (ieee_prec n) (ieee_emax n) (Z.pos (digits2_pos p) + e)).
      { unfold fexp, SpecFloat.emin. unfold m in EM. unfold e. destruct (Z.eqb_spec ex 0) as [E0|NE0].
        - assert (Z.pos (digits2_pos p) <= ieee_prec n - 1) by (apply digits_le; [lia|fold P1; lia]).
          unfold ieee_emin. lia.
        - assert (Z.pos (digits2_pos p) = ieee_prec n) as -> by (apply digits2_unique; fold P1; rewrite H5; fold P1; lia).
          unfold ieee_emin. lia. }
      assert (HE : e <= ieee_emax n - ieee_prec n).
      { unfold e, ieee_emin. destruct (Z.eqb_spec ex 0); lia. }
      assert (WN := widen_narrow n s p e Hn ltac:(rewrite H5; fold P1; lia) CAN HE). rewrite WN.
      cbn [is_inf andb]. f_equal. unfold ieee_bits. fold P1. rewrite HX. fold s. unfold m in EM.
      unfold e. destruct (Z.eqb_spec ex 0) as [E0|NE0].
      * destruct (Z.ltb_spec (Z.pos p) P1); [|lia]. rewrite E0. lia.
      * destruct (Z.ltb_spec (Z.pos p) P1); [lia|].
        replace (ex - 1 + ieee_emin n - ieee_emin n + 1) with ex by ring. lia.
Qed.
Ltac Zify.zify_post_hook ::= Z.div_mod_to_equations.

(** A value read from a payload is read again after being written. *)
Theorem float_value_round n y x :
  float_size_ok n = true -> 0 <= y < 2 ^ n ->
  float_to_bits n (NFlt (bits_to_float n y)) = Ok x -> bits_to_float n x = bits_to_float n y.
Proof.
  intros Hn Hy H.
  assert (DEC : nan_bits n y \/ ~ nan_bits n y).
  { unfold nan_bits. destruct (Z.eq_dec ((y / 2 ^ (ieee_prec n - 1)) mod 2 ^ (n - ieee_prec n)) (2 ^ (n - ieee_prec n) - 1)), (Z.eq_dec (y mod 2 ^ (ieee_prec n - 1)) 0); tauto. }
  destruct DEC as [N|NN].
  - assert (E : bits_to_float n y = S754_nan).
    { unfold bits_to_float. destruct N as [N1 N2]. rewrite N1, Z.eqb_refl. now rewrite (proj2 (Z.eqb_neq _ _) N2). }
    rewrite E in H |- *. cbn in H. apply (f_equal (fun r => match r with Ok z => z | Err _ => 0 end)) in H.
    subst x. unfold float_size_ok in Hn. assert (n = 16 \/ n = 32 \/ n = 64) as [->|[->| ->]] by lia; reflexivity.
  - rewrite float_bits_round in H by assumption. congruence.
Qed.
