(** Conversion: model of src/cantools/database/conversion.py and namedsignalvalue.py.

    Simplification: the [comments] dictionary of a NamedSignalValue (and its comparison in
    [__eq__]) is not modelled; [bool]s are not distinguished from ints. *)
From Coq Require Import Floats.SpecFloat.
From Verif Require Import Base PyNum.

(** An entry of a value table: typechecking.py [Choices] maps int to [str | NamedSignalValue]. *)
Inductive choice :=
| ChStr (s : string)
| ChNamed (value : Z) (name : string).   (* namedsignalvalue.py:11-24 *)

(** typechecking.py [SignalValueType]: numbers, strings, named values. *)
Inductive value :=
| VNum (n : num)
| VStr (s : string)
| VNamed (v : Z) (name : string).

Definition choices_t := list (Z * choice).

Definition choice_value (c : choice) : value :=
  match c with ChStr s => VStr s | ChNamed v n => VNamed v n end.
(** str(choice): namedsignalvalue.py:45-46 *)
Definition choice_str (c : choice) : string :=
  match c with ChStr s => s | ChNamed _ n => n end.

(** The conversion classes without value table: conversion.py:117-220. *)
Inductive num_conv :=
| CIdent (is_float : bool)                          (* IdentityConversion *)
| CLinInt (scale offset : Z)                        (* LinearIntegerConversion *)
| CLin (scale offset : num) (is_float : bool).      (* LinearConversion *)

(** All conversion objects.  [CNamed] is NamedSignalConversion with its attributes
    scale, offset, choices, _inverse_choices, is_float, _conversion (conversion.py:223-241). *)
Inductive conversion :=
| CNum (c : num_conv)
| CNamed (scale offset : num) (choices : choices_t) (inverse : list (string * Z))
         (is_float : bool) (inner : num_conv).

(** conversion.py:295-302 *)
Definition is_integer (n : num) : bool :=
  match n with NInt _ => true | NFlt f => float_is_integer f end.

(** conversion.py:50-61, the branch [choices is None] of [factory] *)
Definition num_factory (scale offset : num) (is_float : bool) : result num_conv :=
  if py_eq scale (NInt 1) && py_eq offset (NInt 0) then Ok (CIdent is_float)
  else if is_integer scale && is_integer offset && negb is_float then
    let* s := py_int scale in
    let* o := py_int offset in
    Ok (CLinInt s o)
  else Ok (CLin scale offset is_float).

(** conversion.py:274-276 [_update_choices]: a dict comprehension, the last entry of a name wins *)
Definition inverse_choices (ch : choices_t) : list (string * Z) :=
  fold_left (fun d kv => sset d (choice_str (snd kv)) (fst kv)) ch [].

(** conversion.py:26-65 [BaseConversion.factory] with 223-241 *)
Definition factory (scale offset : num) (choices : option choices_t) (is_float : bool)
  : result conversion :=
  let* inner := num_factory scale offset is_float in
  match choices with
  | None => Ok (CNum inner)
  | Some ch => Ok (CNamed scale offset ch (inverse_choices ch) is_float inner)
  end.

(** Attributes read by the rest of the code. *)
Definition nc_is_float (c : num_conv) : bool :=
  match c with CIdent f => f | CLinInt _ _ => false | CLin _ _ f => f end.
Definition conv_is_float (c : conversion) : bool :=
  match c with CNum n => nc_is_float n | CNamed _ _ _ _ f _ => f end.
Definition nc_scale (c : num_conv) : num :=
  match c with CIdent _ => NInt 1 | CLinInt s _ => NInt s | CLin s _ _ => s end.
Definition nc_offset (c : num_conv) : num :=
  match c with CIdent _ => NInt 0 | CLinInt _ o => NInt o | CLin _ o _ => o end.
Definition conv_scale (c : conversion) : num :=
  match c with CNum n => nc_scale n | CNamed s _ _ _ _ _ => s end.
Definition conv_offset (c : conversion) : num :=
  match c with CNum n => nc_offset n | CNamed _ o _ _ _ _ => o end.
Definition conv_choices (c : conversion) : option choices_t :=
  match c with CNum _ => None | CNamed _ _ ch _ _ _ => Some ch end.

(** conversion.py:125-130, 156-161, 194-199 *)
Definition nc_raw_to_scaled (c : num_conv) (raw : num) : result num :=
  match c with
  | CIdent _ => Ok raw
  | CLinInt s o => let* p := py_mul raw (NInt s) in py_add p (NInt o)
  | CLin s o _ => let* p := py_mul raw s in py_add p o
  end.

(** conversion.py:139-142, 170-180, 208-212 *)
Definition nc_numeric_scaled_to_raw (c : num_conv) (v : num) : result num :=
  match c with
  | CIdent fl => if fl then Ok v else let* z := py_round v in Ok (NInt z)
  | CLinInt s o =>
      let* r0 := py_sub v (NInt o) in
      let* (q, m) := py_divmod r0 (NInt s) in
      let* r1 := (if py_eq m (NInt 0) then Ok q else py_truediv r0 (NInt s)) in
      let* z := py_round r1 in
      Ok (NInt z)
  | CLin s o fl =>
      let* d := py_sub v o in
      let* r := py_truediv d s in
      if fl then Ok r else let* z := py_round r in Ok (NInt z)
  end.

(** conversion.py:243-250 for the named class, else as above *)
Definition raw_to_scaled (c : conversion) (raw : num) (decode_choices : bool) : result value :=
  match c with
  | CNum n => let* r := nc_raw_to_scaled n raw in Ok (VNum r)
  | CNamed _ _ ch _ _ inner =>
      let* found := (if decode_choices then let* k := py_int raw in Ok (zget ch k) else Ok None) in
      match found with
      | Some c => Ok (choice_value c)
      | None => let* r := nc_raw_to_scaled inner raw in Ok (VNum r)
      end
  end.

(** conversion.py:240-241 (monkeypatched to the inner conversion's method) *)
Definition numeric_scaled_to_raw (c : conversion) (v : num) : result num :=
  match c with
  | CNum n => nc_numeric_scaled_to_raw n v
  | CNamed _ _ _ _ _ inner => nc_numeric_scaled_to_raw inner v
  end.

(** conversion.py:109-110 and 278-279 *)
Definition choice_to_number (c : conversion) (s : string) : result Z :=
  match c with
  | CNum _ => Err KeyError
  | CNamed _ _ _ inv _ _ => sget_exn inv s
  end.

(** conversion.py:132-137, 163-168, 201-206, 252-263 *)
Definition scaled_to_raw (c : conversion) (v : value) : result num :=
  match v with
  | VNum n => numeric_scaled_to_raw c n
  | VStr s => match c with
              | CNum _ => Err TypeError
              | CNamed _ _ _ _ _ _ => let* z := choice_to_number c s in Ok (NInt z)
              end
  | VNamed z _ => match c with CNum _ => Err TypeError | CNamed _ _ _ _ _ _ => Ok (NInt z) end
  end.

(** [x == y] where x is the NamedSignalValue (v, name): namedsignalvalue.py:51-61 *)
Definition named_eq (v : Z) (name : string) (y : value) : bool :=
  match y with
  | VNamed v' n' => (v' =? v) && String.eqb n' name
  | VStr s => String.eqb s name
  | VNum _ => false
  end.

(** Property setters of signal.py:186-236: rebuild the conversion with one changed parameter. *)
Definition set_scale (c : conversion) (s : num) : result conversion :=
  factory s (conv_offset c) (conv_choices c) (conv_is_float c).
Definition set_offset (c : conversion) (o : num) : result conversion :=
  factory (conv_scale c) o (conv_choices c) (conv_is_float c).
Definition set_choices (c : conversion) (ch : option choices_t) : result conversion :=
  factory (conv_scale c) (conv_offset c) ch (conv_is_float c).
Definition set_is_float (c : conversion) (fl : bool) : result conversion :=
  factory (conv_scale c) (conv_offset c) (conv_choices c) fl.
