(** CFloat32: model of src/cantools/database/can/c_source.py: the encode, decode and is_in_phys_range functions that are generated
    for integer signals with floating_point_numbers=True and use_float=True.

    The expressions are those of CFloat; values, literals and operations are of C's float, binary32, every operation is rounded to
    nearest, ties to even (FLT_EVAL_METHOD 0, no contraction).  [None] is undefined behaviour in C, or text that is not C.
    Python's repr() of a float is read by the C compiler as a float: which one that is, is the argument [near]. *)
From Coq Require Import Floats.SpecFloat.
From Verif Require Import Base PyNum Conversion Signal CSource CFloat.

(** The operations of float *)
Definition sadd := SFadd 24 128.
Definition ssub := SFsub 24 128.
Definition smul := SFmul 24 128.
Definition sdiv := SFdiv 24 128.
(** The conversion of an integer to float *)
Definition single_of_Z (z : Z) : option float :=
  let f := binary_normalize 24 128 z 0 false in match f with S754_zero _ | S754_finite _ _ _ => Some f | _ => None end.
Section Single.
  Context (near : float -> float).
  (** c_source.py:1250-1251: a literal with the suffix f *)
  Definition s_literal (n : num) : option float :=
    match n with
    | NInt z => single_of_Z z
    | NFlt f => match f, near f with
                | S754_zero _, g | S754_finite _ _ _, g => match g with S754_zero _ | S754_finite _ _ _ => Some g | _ => None end
                | _, _ => None
                end
    end.
  (** roundf() of math.h: half away from zero *)
  Definition s_round (f : float) : float :=
    match f with
    | S754_finite s m e =>
        if 0 <=? e then f
        else
          let z := div_half_away (Z.pos m) (2 ^ (- e)) in
          if z =? 0 then S754_zero s else binary_normalize 24 128 (signed_Z s z) 0 false
    | _ => f
    end.
  Fixpoint s_eval (e : cfexpr) (value : float) : option float :=
    match e with
    | FValue => Some value
    | FLit n => s_literal n
    | FSub a b => match s_eval a value, s_eval b value with Some x, Some y => Some (ssub x y) | _, _ => None end
    | FAdd a b => match s_eval a value, s_eval b value with Some x, Some y => Some (sadd x y) | _, _ => None end
    | FMul a b => match s_eval a value, s_eval b value with Some x, Some y => Some (smul x y) | _, _ => None end
    | FDiv a b => match s_eval a value, s_eval b value with Some x, Some y => Some (sdiv x y) | _, _ => None end
    | FRound a => match s_eval a value with Some x => Some (s_round x) | None => None end
    end.
  (** c_source.py:545-551 SIGNAL_DEFINITION_ENCODE_FMT, 553-559 SIGNAL_DEFINITION_DECODE_FMT with floating_point_type float *)
  Definition s_encode (c : conversion) (signed : bool) (w : Z) (use_round : bool) (value : float) : option Z :=
    match s_eval (encode_expr c use_round) value with Some f => cast_int signed w f | None => None end.
  Definition s_decode (c : conversion) (value : Z) : option float :=
    match single_of_Z value with Some f => s_eval (decode_expr c) f | None => None end.
  (** c_source.py:1325-1360 [_generate_is_in_phys_range]: the literal of float(limit) with the suffix f *)
  Definition s_limit (n : num) : option float := match to_float n with Ok g => s_literal (NFlt g) | Err _ => None end.
  Definition s_is_in_phys_range (minimum maximum : option num) (value : float) : option bool :=
    let low := match minimum with None => Some true | Some n => match s_limit n with Some f => Some (SFleb f value) | None => None end end in
    let high := match maximum with None => Some true | Some n => match s_limit n with Some f => Some (SFleb value f) | None => None end end in
    match low, high with Some a, Some b => Some (a && b) | _, _ => None end.
End Single.
