(** PyNum: Python numbers.  [int] is [Z]; [float] is the standard library's [spec_float] used at
    binary64 (53, 1024).  The operations are those of CPython: IEEE 754 round-to-nearest-even for
    float arithmetic, correctly rounded int -> float and int / int, exceptions as values.
    Not cantools code; this is the arithmetic the cantools code uses.  NaN payloads are not modelled. *)
From Coq Require Import Floats.SpecFloat.
From Verif Require Import Base.

Notation float := spec_float.
Definition prec := 53.
Definition emax := 1024.

Inductive num :=
| NInt (z : Z)
| NFlt (f : float).

Definition fadd := SFadd prec emax.
Definition fsub := SFsub prec emax.
Definition fmul := SFmul prec emax.
Definition fdiv := SFdiv prec emax.

Definition is_inf (f : float) : bool := match f with S754_infinity _ => true | _ => false end.
Definition is_zero (f : float) : bool := match f with S754_zero _ => true | _ => false end.

(** float(z) for an int: round to nearest even; OverflowError if too large *)
Definition float_of_Z (z : Z) : result float :=
  let f := binary_normalize prec emax z 0 false in
  if is_inf f then Err OverflowError else Ok f.

Definition to_float (n : num) : result float :=
  match n with NInt z => float_of_Z z | NFlt f => Ok f end.

Definition py_arith (iop : Z -> Z -> Z) (fop : float -> float -> float) (a b : num) : result num :=
  match a, b with
  | NInt x, NInt y => Ok (NInt (iop x y))
  | _, _ => let* x := to_float a in let* y := to_float b in Ok (NFlt (fop x y))
  end.
Definition py_add := py_arith Z.add fadd.
Definition py_sub := py_arith Z.sub fsub.
Definition py_mul := py_arith Z.mul fmul.

(** a / b *)
Definition int_truediv (a b : Z) : result float :=
  if b =? 0 then Err ZeroDivisionError else
  if a =? 0 then Ok (S754_zero false) else
  let '(q, e, l) := SFdiv_core_binary prec emax (Z.abs a) 0 (Z.abs b) 0 in
  let f := binary_round_aux prec emax (xorb (a <? 0) (b <? 0)) q e l in
  if is_inf f then Err OverflowError else Ok f.

Definition py_truediv (a b : num) : result num :=
  match a, b with
  | NInt x, NInt y => let* f := int_truediv x y in Ok (NFlt f)
  | _, _ =>
      let* x := to_float a in
      let* y := to_float b in
      if is_zero y then Err ZeroDivisionError else Ok (NFlt (fdiv x y))
  end.

Definition signed_Z (s : bool) (m : Z) : Z := if s then - m else m.

(** Rounding |m| * 2^e to an integer. *)
Definition div_half_even (m d : Z) : Z :=
  let q := m / d in
  let r := m mod d in
  if 2 * r <? d then q
  else if d <? 2 * r then q + 1
  else if Z.even q then q else q + 1.

Definition mag_round (m : positive) (e : Z) : Z :=
  if 0 <=? e then Z.pos m * 2 ^ e else div_half_even (Z.pos m) (2 ^ (- e)).
Definition mag_trunc (m : positive) (e : Z) : Z :=
  if 0 <=? e then Z.pos m * 2 ^ e else Z.pos m / 2 ^ (- e).

(** round(x) with one argument: half to even *)
Definition py_round (n : num) : result Z :=
  match n with
  | NInt z => Ok z
  | NFlt (S754_zero _) => Ok 0
  | NFlt (S754_finite s m e) => Ok (signed_Z s (mag_round m e))
  | NFlt (S754_infinity _) => Err OverflowError
  | NFlt S754_nan => Err ValueError
  end.

(** int(x): truncation *)
Definition py_int (n : num) : result Z :=
  match n with
  | NInt z => Ok z
  | NFlt (S754_zero _) => Ok 0
  | NFlt (S754_finite s m e) => Ok (signed_Z s (mag_trunc m e))
  | NFlt (S754_infinity _) => Err OverflowError
  | NFlt S754_nan => Err ValueError
  end.

(** Is the finite float an integer (float.is_integer)? *)
Definition float_is_integer (f : float) : bool :=
  match f with
  | S754_zero _ => true
  | S754_finite _ m e => if 0 <=? e then true else Z.pos m mod 2 ^ (- e) =? 0
  | _ => false
  end.

(** Exact comparison of an int and a float; [None] for NaN. *)
Definition cmp_Z_float (z : Z) (f : float) : option comparison :=
  match f with
  | S754_zero _ => Some (z ?= 0)
  | S754_infinity s => Some (if s then Gt else Lt)
  | S754_nan => None
  | S754_finite s m e =>
      Some (if 0 <=? e then z ?= signed_Z s (Z.pos m * 2 ^ e)
            else z * 2 ^ (- e) ?= signed_Z s (Z.pos m))
  end.

Definition py_compare (a b : num) : option comparison :=
  match a, b with
  | NInt x, NInt y => Some (x ?= y)
  | NInt x, NFlt g => cmp_Z_float x g
  | NFlt f, NInt y => option_map CompOpp (cmp_Z_float y f)
  | NFlt f, NFlt g => SFcompare f g
  end.
Definition py_eq (a b : num) : bool := match py_compare a b with Some Eq => true | _ => false end.
Definition py_lt (a b : num) : bool := match py_compare a b with Some Lt => true | _ => false end.
Definition py_gt (a b : num) : bool := match py_compare a b with Some Gt => true | _ => false end.

Definition py_abs (a : num) : num :=
  match a with NInt z => NInt (Z.abs z) | NFlt f => NFlt (SFabs f) end.

(** ** divmod *)

Definition float_neg (f : float) : bool :=
  match f with S754_zero s | S754_infinity s => s | S754_finite s _ _ => s | S754_nan => false end.

(** C fmod: exact remainder with the sign of x.  Infinite/NaN cases per C99. *)
Definition float_fmod (x y : float) : float :=
  match x, y with
  | S754_nan, _ | _, S754_nan | S754_infinity _, _ | _, S754_zero _ => S754_nan
  | S754_zero _, _ => x
  | S754_finite _ _ _, S754_infinity _ => x
  | S754_finite sx mx ex, S754_finite _ my ey =>
      let e := Z.min ex ey in
      let r := (Z.pos mx * 2 ^ (ex - e)) mod (Z.pos my * 2 ^ (ey - e)) in
      if r =? 0 then S754_zero sx else binary_normalize prec emax (signed_Z sx r) e false
  end.

(** C floor on a double *)
Definition float_floor (x : float) : float :=
  match x with
  | S754_finite s m e =>
      if 0 <=? e then x
      else
        let z := signed_Z s (Z.pos m) / 2 ^ (- e) in
        if z =? 0 then S754_zero s else binary_normalize prec emax z 0 false
  | _ => x
  end.

Definition float_one : float := binary_normalize prec emax 1 0 false.
Definition float_half : float := binary_normalize prec emax 1 (-1) false.

(** CPython Objects/floatobject.c:_float_div_mod *)
Definition float_divmod (vx wx : float) : float * float :=
  let m0 := float_fmod vx wx in
  let d0 := fdiv (fsub vx m0) wx in
  let '(d1, m1) :=
    if is_zero m0 then (d0, S754_zero (float_neg wx))
    else if xorb (float_neg wx) (float_neg m0)
         then (fsub d0 float_one, fadd m0 wx) else (d0, m0) in
  let fl :=
    if is_zero d1 then S754_zero (float_neg (fdiv vx wx))
    else
      let f := float_floor d1 in
      if SFltb float_half (fsub d1 f) then fadd f float_one else f in
  (fl, m1).

Definition py_divmod (a b : num) : result (num * num) :=
  match a, b with
  | NInt x, NInt y => if y =? 0 then Err ZeroDivisionError else Ok (NInt (x / y), NInt (x mod y))
  | _, _ =>
      let* x := to_float a in
      let* y := to_float b in
      if is_zero y then Err ZeroDivisionError
      else let '(q, r) := float_divmod x y in Ok (NFlt q, NFlt r)
  end.

(** ** IEEE interchange encodings used by the bitstruct/struct formats f16, f32, f64 *)

Definition ieee_prec (n : Z) : Z := if n =? 16 then 11 else if n =? 32 then 24 else 53.
Definition ieee_emax (n : Z) : Z := if n =? 16 then 16 else if n =? 32 then 128 else 1024.
Definition ieee_emin (n : Z) : Z := 3 - ieee_emax n - ieee_prec n.
Definition float_size_ok (n : Z) : bool := (n =? 16) || (n =? 32) || (n =? 64).

(** Round a binary64 to the target format (identity for n = 64). *)
Definition narrow (n : Z) (f : float) : float :=
  match f with
  | S754_finite s m e => binary_round (ieee_prec n) (ieee_emax n) s m e
  | _ => f
  end.

Definition ieee_bits (n : Z) (f : float) : Z :=
  let mw := ieee_prec n - 1 in
  let ew := n - ieee_prec n in
  let sb (s : bool) := if s then 2 ^ (n - 1) else 0 in
  match f with
  | S754_zero s => sb s
  | S754_infinity s => sb s + (2 ^ ew - 1) * 2 ^ mw
  | S754_nan => (2 ^ ew - 1) * 2 ^ mw + 2 ^ (mw - 1)
  | S754_finite s m e =>
      if Z.pos m <? 2 ^ mw then sb s + Z.pos m
      else sb s + (e - ieee_emin n + 1) * 2 ^ mw + (Z.pos m - 2 ^ mw)
  end.

(** struct.pack('>e' / '>f' / '>d', x): OverflowError when a finite value rounds to infinity *)
Definition float_to_bits (n : Z) (x : num) : result Z :=
  let* f := to_float x in
  let g := narrow n f in
  if is_inf g && negb (is_inf f) then Err OverflowError else Ok (ieee_bits n g).

(** struct.unpack *)
Definition bits_to_float (n : Z) (x : Z) : float :=
  let mw := ieee_prec n - 1 in
  let ew := n - ieee_prec n in
  let s := Z.testbit x (n - 1) in
  let ex := (x / 2 ^ mw) mod 2 ^ ew in
  let fr := x mod 2 ^ mw in
  if ex =? 2 ^ ew - 1 then (if fr =? 0 then S754_infinity s else S754_nan)
  else
    let m := if ex =? 0 then fr else 2 ^ mw + fr in
    let e := if ex =? 0 then ieee_emin n else ex - 1 + ieee_emin n in
    match m with
    | Z.pos p => binary_round prec emax s p e
    | _ => S754_zero s
    end.

(** Sanity tests of the arithmetic (examples, not properties). *)
Example t_third : py_truediv (NInt 1) (NInt 3) = Ok (NFlt (S754_finite false 6004799503160661 (-54))).
Proof. vm_compute. reflexivity. Qed.
Example t_bits : float_to_bits 64 (NFlt (S754_finite false 6004799503160661 (-54))) = Ok 0x3FD5555555555555.
Proof. vm_compute. reflexivity. Qed.
Example t_bits32 : float_to_bits 32 (NFlt (S754_finite false 6004799503160661 (-54))) = Ok 0x3EAAAAAB.
Proof. vm_compute. reflexivity. Qed.
Example t_bits16 : float_to_bits 16 (NFlt (S754_finite false 6004799503160661 (-54))) = Ok 0x3555.
Proof. vm_compute. reflexivity. Qed.
Example t_round : (py_round (NFlt (S754_finite false 5 (-1))), py_round (NFlt (S754_finite true 7 (-1))))
                  = (Ok 2, Ok (-4)).
Proof. vm_compute. reflexivity. Qed.
Example t_divmod : py_divmod (NFlt (binary_normalize prec emax (-15) (-1) false)) (NInt 2) =
  Ok (NFlt (binary_normalize prec emax (-4) 0 false), NFlt (binary_normalize prec emax 1 (-1) false)).
Proof. vm_compute. reflexivity. Qed.
