(** CFloat: model of src/cantools/database/can/c_source.py: the encode, decode, is_in_phys_range and init functions that are
    generated for the signals of a message, with floating_point_numbers=True and use_float=False.

    The expressions stand for the emitted text; C's double is binary64 and every operation is rounded to nearest, ties to even
    (FLT_EVAL_METHOD 0, no contraction).  [None] is undefined behaviour in C, or text that is not C. *)
From Coq Require Import Floats.SpecFloat.
From Verif Require Import Base PyNum Conversion Signal CSource.

(** ** Emitted expressions *)
Inductive cfexpr :=
| FValue                      (* value, or (double)value *)
| FLit (n : num)              (* the literal of a Python number *)
| FSub (a b : cfexpr)
| FAdd (a b : cfexpr)
| FMul (a b : cfexpr)
| FDiv (a b : cfexpr)
| FRound (a : cfexpr).        (* round(a) *)

(** c_source.py:1244-1269 [_generate_encode_decode]; the conversion gives scale, offset and is_float of the signal *)
Definition encode_expr (c : conversion) (use_round : bool) : cfexpr :=
  let scale := conv_scale c in
  let offset := conv_offset c in
  let off0 := py_eq offset (NInt 0) in
  let sc1 := py_eq scale (NInt 1) in
  let e :=
    if off0 && sc1 then FValue
    else if negb off0 && negb sc1 then FDiv (FSub FValue (FLit offset)) (FLit scale)
    else if negb off0 then FSub FValue (FLit offset)
    else FDiv FValue (FLit scale) in
  if negb (conv_is_float c) && use_round then FRound e else e.
Definition decode_expr (c : conversion) : cfexpr :=
  let scale := conv_scale c in
  let offset := conv_offset c in
  let off0 := py_eq offset (NInt 0) in
  let sc1 := py_eq scale (NInt 1) in
  if off0 && sc1 then FValue
  else if negb off0 && negb sc1 then FAdd (FMul FValue (FLit scale)) (FLit offset)
  else if negb off0 then FAdd FValue (FLit offset)
  else FMul FValue (FLit scale).

(** ** C semantics *)
(** A literal: str(int) with '.0', or repr(float), which names the float; nan and inf are not C. *)
Definition c_literal (n : num) : option float :=
  match n with
  | NInt z => match float_of_Z z with Ok f => Some f | Err _ => None end
  | NFlt f => match f with S754_zero _ | S754_finite _ _ _ => Some f | _ => None end
  end.
(** round() of math.h: half away from zero *)
Definition div_half_away (m d : Z) : Z := (2 * m + d) / (2 * d).
Definition c_round (f : float) : float :=
  match f with
  | S754_finite s m e =>
      if 0 <=? e then f
      else
        let z := div_half_away (Z.pos m) (2 ^ (- e)) in
        if z =? 0 then S754_zero s else binary_normalize prec emax (signed_Z s z) 0 false
  | _ => f
  end.
Fixpoint cf_eval (e : cfexpr) (value : float) : option float :=
  match e with
  | FValue => Some value
  | FLit n => c_literal n
  | FSub a b => match cf_eval a value, cf_eval b value with Some x, Some y => Some (fsub x y) | _, _ => None end
  | FAdd a b => match cf_eval a value, cf_eval b value with Some x, Some y => Some (fadd x y) | _, _ => None end
  | FMul a b => match cf_eval a value, cf_eval b value with Some x, Some y => Some (fmul x y) | _, _ => None end
  | FDiv a b => match cf_eval a value, cf_eval b value with Some x, Some y => Some (fdiv x y) | _, _ => None end
  | FRound a => match cf_eval a value with Some x => Some (c_round x) | None => None end
  end.
(** (intN_t)x and (uintN_t)x of a double: the fraction is dropped; undefined if the integral part does not fit. *)
Definition cast_int (signed : bool) (w : Z) (f : float) : option Z :=
  match py_int (NFlt f) with
  | Ok z => if (if signed then (- 2 ^ (w - 1) <=? z) && (z <=? 2 ^ (w - 1) - 1) else (0 <=? z) && (z <=? 2 ^ w - 1)) then Some z else None
  | Err _ => None
  end.

(** c_source.py:545-551 SIGNAL_DEFINITION_ENCODE_FMT for a signal whose member is an integer of w bits *)
Definition c_encode (c : conversion) (signed : bool) (w : Z) (use_round : bool) (value : float) : option Z :=
  match cf_eval (encode_expr c use_round) value with Some f => cast_int signed w f | None => None end.
(** c_source.py:553-559 SIGNAL_DEFINITION_DECODE_FMT; the conversion of an integer to double rounds *)
Definition c_decode (c : conversion) (value : Z) : option float :=
  match float_of_Z value with Ok f => cf_eval (decode_expr c) f | Err _ => None end.
(** SIGNAL_DEFINITION_ENCODE_FMT and DECODE_FMT for a float signal: the member is a float (32 bits) or a double *)
Definition c_encode_float (c : conversion) (size : Z) (use_round : bool) (value : float) : option float :=
  match cf_eval (encode_expr c use_round) value with Some f => Some (narrow size f) | None => None end.
Definition c_decode_float (c : conversion) (value : float) : option float := cf_eval (decode_expr c) value.

(** c_source.py:1325-1360 [_generate_is_in_phys_range] *)
Definition c_is_in_phys_range (minimum maximum : option num) (value : float) : option bool :=
  let low := match minimum with
             | None => Some true
             | Some n => match to_float n with Ok f => Some (SFleb f value) | Err _ => None end
             end in
  let high := match maximum with
              | None => Some true
              | Some n => match to_float n with Ok f => Some (SFleb value f) | Err _ => None end
              end in
  match low, high with Some a, Some b => Some (a && b) | _, _ => None end.

(** ** init *)
(** Truth of signal.initial (c_source.py:1635): a number that is not zero, a text that is not empty, or a NamedSignalValue *)
Definition truthy (v : value) : bool :=
  match v with VNum n => negb (py_eq n (NInt 0)) | VStr s => negb (String.eqb s "") | VNamed _ _ => true end.
(** signal.py:101-103 *)
Definition initial_of (s : signal) (raw_initial : option Z) : result (option value) :=
  match raw_initial with
  | None => Ok None
  | Some r => let* v := raw_to_scaled (s_conv s) (NInt r) true in Ok (Some v)
  end.
(** c_source.py:1635-1637 with 457-468: memset, then one assignment for every signal with an initial value that counts as true *)
Fixpoint c_init (sigs : list (signal * option Z)) (mem : string -> Z) : result (string -> Z) :=
  match sigs with
  | [] => Ok mem
  | (s, r) :: rest =>
      let* i := initial_of s r in
      let mem' := match i, r with
                  | Some v, Some z => if truthy v then fun n => if String.eqb n (member s) then z else mem n else mem
                  | _, _ => mem
                  end in
      c_init rest mem'
  end.
Definition c_init_struct (sigs : list (signal * option Z)) : result (string -> Z) := c_init sigs (fun _ => 0).
