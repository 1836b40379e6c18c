(** Bitstruct: the semantics assumed of the external library bitstruct (pure Python and C backend),
    restricted to the formats cantools generates: p (padding), u, s, f and the dictionary interface.

    Items are laid out most significant bit first; the packed data is zero-padded to a byte boundary.
    This file is part of the trusted base (bitstruct's source is not in /repo). *)
From Coq Require Import Floats.SpecFloat.
From Verif Require Import Base PyNum.

Inductive fkind := FUns | FSig | FFlt.

Inductive item :=
| IPad (n : Z)                                (* 'p<n>' *)
| IData (k : fkind) (n : Z) (name : string).  (* 'u<n>', 's<n>', 'f<n>' *)

Definition item_len (it : item) : Z := match it with IPad n => n | IData _ n _ => n end.
Fixpoint items_len (l : list item) : Z :=
  match l with [] => 0 | it :: r => item_len it + items_len r end.

(** bitstruct.compile: float sizes other than 16, 32, 64 are rejected, as is a size of 0. *)
Definition item_valid (it : item) : bool :=
  match it with
  | IPad n => 0 <? n
  | IData FFlt n _ => float_size_ok n
  | IData _ n _ => 0 <? n
  end.
Definition compile (l : list item) : result unit :=
  if forallb item_valid l then Ok tt else Err StructError.

(** The field written for a number.  Only ints reach 'u'/'s' fields: every caller passes a rounded
    value there. *)
Definition pack_field (k : fkind) (n : Z) (v : num) : result Z :=
  match k with
  | FUns => match v with
            | NInt z => if (0 <=? z) && (z <? 2 ^ n) then Ok z else Err RangeError
            | NFlt _ => Err TypeError
            end
  | FSig => match v with
            | NInt z => if (- 2 ^ (n - 1) <=? z) && (z <? 2 ^ (n - 1)) then Ok (z mod 2 ^ n)
                        else Err RangeError
            | NFlt _ => Err TypeError
            end
  | FFlt => float_to_bits n v
  end.

Definition unpack_field (k : fkind) (n : Z) (x : Z) : num :=
  match k with
  | FUns => NInt x
  | FSig => NInt (if x <? 2 ^ (n - 1) then x else x - 2 ^ n)
  | FFlt => NFlt (bits_to_float n x)
  end.

(** Packed integer of all items (total width [items_len]). *)
Fixpoint pack_items (d : list (string * num)) (l : list item) : result Z :=
  match l with
  | [] => Ok 0
  | it :: r =>
      let* f := (match it with
                 | IPad _ => Ok 0
                 | IData k n name => let* v := sget_exn d name in pack_field k n v
                 end) in
      let* v := pack_items d r in
      Ok (f * 2 ^ items_len r + v)
  end.

Definition bytes_for (bits : Z) : nat := Z.to_nat ((bits + 7) / 8).

(** An integer of [t] bits as bytes, left-justified. *)
Definition pack_int (t v : Z) : list Z :=
  to_be (bytes_for t) (v * 2 ^ (8 * Z.of_nat (bytes_for t) - t)).

(** CompiledFormatDict.pack(d) *)
Definition pack (l : list item) (d : list (string * num)) : result (list Z) :=
  let* v := pack_items d l in
  Ok (pack_int (items_len l) v).

(** Fields of an integer of [t] bits, in order. *)
Fixpoint unpack_items (l : list item) (t v : Z) : list (string * num) :=
  match l with
  | [] => []
  | it :: r =>
      let t' := t - item_len it in
      let x := (v / 2 ^ t') mod 2 ^ item_len it in
      match it with
      | IPad _ => unpack_items r t' v
      | IData k n name => (name, unpack_field k n x) :: unpack_items r t' v
      end
  end.

(** CompiledFormatDict.unpack(data): Error when the data is too short; later names overwrite *)
Definition unpack (l : list item) (data : list Z) : result (list (string * num)) :=
  if 8 * zlen data <? items_len l then Err StructError
  else Ok (supdate [] (unpack_items l (8 * zlen data) (from_be data))).
