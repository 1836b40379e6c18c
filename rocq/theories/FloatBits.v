(** FloatBits: the IEEE encodings of PyNum stay inside their field (integer proofs, no reals). *)
From Coq Require Import Floats.SpecFloat.
From Verif Require Import Base PyNum.
Ltac Zify.zify_post_hook ::= Z.div_mod_to_equations.

Lemma digits2_pos_bound p : 2 ^ (Z.pos (digits2_pos p) - 1) <= Z.pos p < 2 ^ Z.pos (digits2_pos p).
Proof.
  induction p as [p IH|p IH|]; cbn [digits2_pos]; [| |cbn; lia].
  - rewrite Pos2Z.inj_succ. replace (Z.succ (Z.pos (digits2_pos p)) - 1) with (Z.succ (Z.pos (digits2_pos p) - 1)) by lia.
    rewrite !Z.pow_succ_r by lia. lia.
  - rewrite Pos2Z.inj_succ. replace (Z.succ (Z.pos (digits2_pos p)) - 1) with (Z.succ (Z.pos (digits2_pos p) - 1)) by lia.
    rewrite !Z.pow_succ_r by lia. lia.
Qed.

Lemma Zdigits2_bound m : 0 <= m -> m < 2 ^ Zdigits2 m.
Proof.
  intros H. destruct m as [|p|p]; cbn [Zdigits2]; [cbn; lia| |lia].
  apply digits2_pos_bound.
Qed.
Lemma Zdigits2_nonneg m : 0 <= Zdigits2 m.
Proof. destruct m; cbn; lia. Qed.

Lemma shr_1_m r : 0 <= shr_m r -> shr_m (shr_1 r) = shr_m r / 2.
Proof. destruct r as [m rr s]. cbn. destruct m as [|p|p]; [reflexivity| |lia]. destruct p; cbn; lia. Qed.

Lemma iter_shr_1_m p : forall r, 0 <= shr_m r -> shr_m (SpecFloat.iter_pos shr_1 p r) = shr_m r / 2 ^ Z.pos p.
Proof.
  induction p as [p IH|p IH|]; intros r Hr; cbn [SpecFloat.iter_pos].
  - assert (H1 : 0 <= shr_m (shr_1 r)) by (rewrite shr_1_m by assumption; lia).
    assert (H2 : shr_m (SpecFloat.iter_pos shr_1 p (shr_1 r)) = shr_m (shr_1 r) / 2 ^ Z.pos p) by now apply IH.
    assert (0 < 2 ^ Z.pos p) by lia.
    rewrite IH; rewrite H2; [|apply Z.div_pos; lia].
    rewrite shr_1_m by assumption.
    rewrite !Z.div_div by lia. f_equal.
    change (Z.pos p~1) with (1 + 2 * Z.pos p). rewrite Z.pow_add_r by lia.
    replace (2 * Z.pos p) with (Z.pos p + Z.pos p) by lia. rewrite Z.pow_add_r by lia. lia.
  - assert (H2 : shr_m (SpecFloat.iter_pos shr_1 p r) = shr_m r / 2 ^ Z.pos p) by now apply IH.
    assert (0 < 2 ^ Z.pos p) by lia.
    rewrite IH; rewrite H2; [|apply Z.div_pos; lia].
    rewrite !Z.div_div by lia. f_equal.
    change (Z.pos p~0) with (2 * Z.pos p).
    replace (2 * Z.pos p) with (Z.pos p + Z.pos p) by lia. rewrite Z.pow_add_r by lia. lia.
  - now rewrite shr_1_m.
Qed.

Lemma shr_record_of_loc_m m l : shr_m (shr_record_of_loc m l) = m.
Proof. destruct l as [|[]]; reflexivity. Qed.

Lemma shr_fexp_spec prec emax m e l r e' :
  0 <= m -> shr_fexp prec emax m e l = (r, e') ->
  0 <= shr_m r /\ (0 < prec -> SpecFloat.emin prec emax <= e' /\ shr_m r < 2 ^ prec).
Proof.
  intros Hm. unfold shr_fexp, shr.
  set (k := fexp prec emax (Zdigits2 m + e) - e).
  assert (Hd := Zdigits2_bound m Hm). assert (Hn := Zdigits2_nonneg m).
  unfold fexp in k.
  destruct k as [|p|p] eqn:Ek; intros [= <- <-]; rewrite ?iter_shr_1_m, shr_record_of_loc_m by (rewrite shr_record_of_loc_m; lia).
  - split; [assumption|]. intros Hp. split; [lia|].
    apply Z.lt_le_trans with (1 := Hd). apply Z.pow_le_mono_r; lia.
  - assert (0 < 2 ^ Z.pos p) by lia. split; [apply Z.div_pos; lia|].
    intros Hp. split; [lia|].
    apply Z.div_lt_upper_bound; [lia|].
    rewrite <- Z.pow_add_r by lia.
    apply Z.lt_le_trans with (1 := Hd). apply Z.pow_le_mono_r; lia.
  - split; [assumption|]. intros Hp. split; [lia|].
    apply Z.lt_le_trans with (1 := Hd). apply Z.pow_le_mono_r; lia.
Qed.

(** Mantissa and exponent bounds of a rounded number. *)
Definition sf_bounded (prec emax : Z) (f : float) : Prop :=
  match f with
  | S754_finite _ m e =>
      Z.pos m < 2 ^ prec /\ SpecFloat.emin prec emax <= e <= emax - prec
  | _ => True
  end.

Lemma round_nearest_even_nonneg m l : 0 <= m -> 0 <= round_nearest_even m l.
Proof. intros. unfold round_nearest_even. destruct l as [|[]]; try lia. destruct (Z.even m); lia. Qed.

Lemma binary_round_aux_bounded prec emax s m e l :
  0 < prec -> 0 <= m -> sf_bounded prec emax (binary_round_aux prec emax s m e l).
Proof.
  intros Hp Hm. unfold binary_round_aux.
  destruct (shr_fexp prec emax m e l) as [r e'] eqn:E1.
  destruct (shr_fexp_spec _ _ _ _ _ _ _ Hm E1) as [H1 _].
  destruct (shr_fexp prec emax _ e' loc_Exact) as [r2 e2] eqn:E2.
  destruct (shr_fexp_spec _ _ _ _ _ _ _ (round_nearest_even_nonneg _ _ H1) E2) as [H2 H3].
  specialize (H3 Hp). destruct H3 as [H3 H4].
  destruct (shr_m r2) as [|p|p]; [exact I| |exact I].
  destruct (e2 <=? emax - prec) eqn:E; [|exact I]. cbn. lia.
Qed.

Lemma binary_round_bounded prec emax s m e :
  0 < prec -> sf_bounded prec emax (binary_round prec emax s m e).
Proof.
  intros Hp. unfold binary_round. destruct (shl_align _ _ _) as [mz ez].
  apply binary_round_aux_bounded; lia.
Qed.

Lemma ieee_params n : float_size_ok n = true ->
  2 <= ieee_prec n /\ 8 <= ieee_emax n /\ 2 <= n - ieee_prec n /\
  2 ^ (n - ieee_prec n) = 2 * ieee_emax n /\
  2 ^ ieee_prec n = 2 * 2 ^ (ieee_prec n - 1) /\
  2 ^ (ieee_prec n - 1) = 2 * 2 ^ (ieee_prec n - 1 - 1) /\
  2 ^ (n - 1) = 2 * ieee_emax n * 2 ^ (ieee_prec n - 1) /\
  2 ^ n = 2 * 2 ^ (n - 1).
Proof.
  unfold float_size_ok. intros Hn.
  assert (n = 16 \/ n = 32 \/ n = 64) as [->|[->| ->]] by lia; vm_compute; repeat split; congruence.
Qed.

Lemma ieee_bits_bound n f :
  float_size_ok n = true -> sf_bounded (ieee_prec n) (ieee_emax n) f ->
  0 <= ieee_bits n f < 2 ^ n.
Proof.
  intros Hn Hf. destruct (ieee_params n Hn) as (H1 & H2 & H3 & H4 & H5 & H6 & H7 & H8).
  unfold ieee_bits. rewrite H4, H8, H7.
  assert (Hq : 0 < 2 ^ (ieee_prec n - 1 - 1)) by (apply Z.pow_pos_nonneg; lia).
  destruct f as [s|s| |s m e].
  - rewrite H6. destruct s; nia.
  - rewrite H6. destruct s; nia.
  - rewrite H6. nia.
  - unfold sf_bounded, SpecFloat.emin in Hf. unfold ieee_emin. rewrite H5 in Hf.
    set (P := 2 ^ (ieee_prec n - 1)) in *. set (E := ieee_emax n) in *. clearbody P E.
    destruct (Z.ltb_spec (Z.pos m) P).
    + destruct s; nia.
    + set (x := e - (3 - E - ieee_prec n) + 1).
      assert (Hx : 1 <= x <= 2 * E - 2) by lia. clearbody x.
      assert (0 <= x * P) by nia. assert (x * P <= (2 * E - 2) * P) by nia.
      destruct s; lia.
Qed.

Lemma float_to_bits_bound n v x :
  float_size_ok n = true -> float_to_bits n v = Ok x -> 0 <= x < 2 ^ n.
Proof.
  intros Hn. unfold float_to_bits.
  destruct (to_float v) as [f|e]; cbn [bind]; [|discriminate].
  destruct (_ && _); [discriminate|]. intros [= <-].
  apply ieee_bits_bound; [assumption|].
  destruct f; cbn [narrow]; try exact I.
  apply binary_round_bounded. unfold ieee_prec.
  destruct (n =? 16); [lia|]. destruct (n =? 32); lia.
Qed.
