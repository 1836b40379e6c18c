(** Formats: model of the coding part of src/cantools/database/utils.py. *)
From Coq Require Import Floats.SpecFloat.
From Verif Require Import Base PyNum Conversion Signal Bitstruct.

(** typechecking.py [Formats] *)
Record formats := mkFormats {
  f_big : list item;
  f_little : list item;
  f_mask : Z
}.

(** utils.py:195-201 [get_format_string_type] *)
Definition format_kind (s : signal) : fkind :=
  if conv_is_float (s_conv s) then FFlt else if s_signed s then FSig else FUns.

(** utils.py:209-213 [data_item] *)
Definition data_item (s : signal) : item := IData (format_kind s) (s_length s) (s_name s).

(** [items.append(padding_item(n))] guarded by [n > 0] *)
Definition pad_if (n : Z) : list item := if 0 <? n then [IPad n] else [].

(** utils.py:221-225 [padding_mask]: the item masks concatenated and read as a binary number *)
Fixpoint padding_mask (l : list item) : Z :=
  match l with
  | [] => 0
  | it :: r => (match it with IPad n => 2 ^ n - 1 | IData _ _ _ => 0 end) * 2 ^ items_len r
               + padding_mask r
  end.

(** utils.py:227-251 [create_big], the loop over the sorted big endian signals *)
Fixpoint big_items (start : Z) (l : list signal) (flen : Z) : list item :=
  match l with
  | [] => if start <? flen then [IPad (flen - start)] else []
  | s :: r => pad_if (start_bit s - start) ++ data_item s :: big_items (start_bit s + s_length s) r flen
  end.
Definition create_big (signals : list signal) (flen : Z) : list item :=
  big_items 0
    (sorted_py (fun a b => sawtooth_to_network (s_start a) <=? sawtooth_to_network (s_start b))
       (filter s_big signals)) flen.

(** utils.py:253-272 [create_little], the loop over the reversed list *)
Fixpoint little_items (lend : Z) (l : list signal) : list item :=
  match l with
  | [] => pad_if lend
  | s :: r =>
      if s_big s then little_items lend r
      else pad_if (lend - (s_start s + s_length s)) ++ data_item s :: little_items (s_start s) r
  end.
Definition create_little (signals : list signal) (flen : Z) : list item :=
  little_items flen (rev signals).

(** utils.py:274-279: the little endian mask is packed and its bytes are read in reverse *)
Definition little_mask (items : list item) (flen : Z) : Z :=
  let value := padding_mask items in
  if 0 <? flen then from_le (pack_int (items_len items) value) else value.

(** utils.py:192-296 [create_encode_decode_formats] *)
Definition create_formats (signals : list signal) (nbytes : Z) : result formats :=
  let flen := 8 * nbytes in
  let big := create_big signals flen in
  let little := create_little signals flen in
  let* _ := compile big in
  let* _ := compile little in
  Ok (mkFormats big little (Z.land (padding_mask big) (little_mask little flen))).

(** utils.py:66-104 [_encode_signal_values] for one signal *)
Definition encode_signal_value (s : signal) (v : value) (scaling : bool) : result num :=
  match v with
  | VNum n =>
      if scaling then numeric_scaled_to_raw (s_conv s) n
      else if conv_is_float (s_conv s) then Ok n
      else let* z := py_round n in Ok (NInt z)
  | VStr str => let* z := choice_to_number (s_conv s) str in Ok (NInt z)
  | VNamed z name =>
      let* sc := raw_to_scaled (s_conv s) (NInt z) true in
      if named_eq z name sc then Ok (NInt z) else Err EncodeError
  end.

Fixpoint encode_signal_values (signals : list signal) (values : list (string * value))
         (scaling : bool) (acc : list (string * num)) : result (list (string * num)) :=
  match signals with
  | [] => Ok acc
  | s :: r =>
      let* v := sget_exn values (s_name s) in
      let* raw := encode_signal_value s v scaling in
      encode_signal_values r values scaling (sset acc (s_name s) raw)
  end.

(** utils.py:107-120 [encode_data] *)
Definition encode_data (values : list (string * value)) (signals : list signal) (f : formats)
           (scaling : bool) : result Z :=
  match signals with
  | [] => Ok 0
  | _ :: _ =>
      let* raws := encode_signal_values signals values scaling [] in
      let* big := pack (f_big f) raws in
      let* little := pack (f_little f) raws in
      Ok (Z.lor (from_be big) (from_le little))
  end.

(** [bytes.ljust(n, b'\xff')] *)
Definition ljust_ff (n : Z) (data : list Z) : list Z :=
  data ++ repeat 255 (Z.to_nat (n - zlen data)).

(** utils.py:133-147: length adjustment *)
Definition fit_data (data : list Z) (expected : Z) (allow_truncated allow_excess : bool)
  : result (list Z) :=
  if zlen data =? expected then Ok data
  else
    let d1 := if allow_truncated then ljust_ff expected data else data in
    let d2 := if allow_excess then firstn (Z.to_nat expected) d1 else d1 in
    if zlen d2 =? expected then Ok d2 else Err DecodeError.

(** utils.py:156-171: deletion of signals not completely received ([del unpacked[signal.name]]) *)
Fixpoint remove_truncated (signals : list signal) (nbits : Z) (d : list (string * num))
  : result (list (string * num)) :=
  match signals with
  | [] => Ok d
  | s :: r =>
      let sb := if s_big s then 8 * (s_start s / 8) + (7 - s_start s mod 8) else s_start s in
      if nbits <? sb + s_length s then
        if smem d (s_name s) then remove_truncated r nbits (sdel d (s_name s)) else Err KeyError
      else remove_truncated r nbits d
  end.

(** [choices.get(value)] for a raw number: a float key finds the equal int key *)
Definition choices_lookup (ch : choices_t) (v : num) : option choice :=
  match v with
  | NInt z => zget ch z
  | NFlt f => if float_is_integer f then
                match py_int v with Ok z => zget ch z | Err _ => None end
              else None
  end.

(** utils.py:173-189: scaling and choices for one signal *)
Definition decode_signal_value (s : signal) (raw : num) (decode_choices scaling : bool)
  : result value :=
  if scaling then raw_to_scaled (s_conv s) raw decode_choices
  else
    match (if decode_choices then conv_choices (s_conv s) else None) with
    | Some ch => match choices_lookup ch raw with
                 | Some c => Ok (choice_value c)
                 | None => Ok (VNum raw)
                 end
    | None => Ok (VNum raw)
    end.

Fixpoint decode_signal_values (signals : list signal) (unpacked : list (string * num))
         (decode_choices scaling : bool) (acc : list (string * value))
  : result (list (string * value)) :=
  match signals with
  | [] => Ok acc
  | s :: r =>
      match sget unpacked (s_name s) with
      | None => decode_signal_values r unpacked decode_choices scaling acc
      | Some raw =>
          let* v := decode_signal_value s raw decode_choices scaling in
          decode_signal_values r unpacked decode_choices scaling (sset acc (s_name s) v)
      end
  end.

(** utils.py:123-189 [decode_data] *)
Definition decode_data (data : list Z) (expected : Z) (signals : list signal) (f : formats)
           (decode_choices scaling allow_truncated allow_excess : bool)
  : result (list (string * value)) :=
  let* d := fit_data data expected allow_truncated allow_excess in
  let* unpacked :=
     catch (let* b := unpack (f_big f) d in
            let* l := unpack (f_little f) (rev d) in
            Ok (supdate b l))
           (fun e => exn_eqb e StructError || exn_eqb e ValueError) (Err DecodeError) in
  let* unpacked' :=
     (if (zlen data <? expected) && allow_truncated
      then remove_truncated signals (8 * zlen data) unpacked else Ok unpacked) in
  decode_signal_values signals unpacked' decode_choices scaling [].
