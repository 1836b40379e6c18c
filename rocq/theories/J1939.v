(** J1939: model of src/cantools/j1939.py.  Errors of the module are cantools.Error
    ([CantoolsError]); arguments are ints. *)
From Verif Require Import Base PyNum Bitstruct.

(** bitstruct.pack with a format of unsigned fields of the given widths (positional arguments) *)
Fixpoint pack_fields (widths values : list Z) : result Z :=
  match widths, values with
  | w :: ws, v :: vs =>
      let* f := pack_field FUns w (NInt v) in
      let* r := pack_fields ws vs in
      Ok (f * 2 ^ fold_right Z.add 0 ws + r)
  | [], _ => Ok 0
  | _ :: _, [] => Err StructError
  end.
Definition bit_pack (widths values : list Z) : result (list Z) :=
  let* v := pack_fields widths values in Ok (pack_int (fold_right Z.add 0 widths) v).

(** bitstruct.unpack of unsigned fields *)
Fixpoint unpack_fields (widths : list Z) (t v : Z) : list Z :=
  match widths with
  | [] => []
  | w :: ws => v / 2 ^ (t - w) mod 2 ^ w :: unpack_fields ws (t - w) v
  end.
Definition bit_unpack (widths : list Z) (data : list Z) : result (list Z) :=
  if 8 * zlen data <? fold_right Z.add 0 widths then Err StructError
  else Ok (unpack_fields widths (8 * zlen data) (from_be data)).
(** [bitstruct.unpack(fmt, data)[0]] *)
Definition bit_unpack1 (w : Z) (data : list Z) : result Z :=
  let* l := bit_unpack [w] data in match l with x :: _ => Ok x | [] => Err IndexError end.

(** [except bitstruct.Error: raise Error(..)]: RangeError is a bitstruct.Error *)
Definition to_error {A} (r : result A) : result A :=
  catch r (fun e => exn_eqb e StructError || exn_eqb e RangeError) (Err CantoolsError).

Definition frame_widths : list Z := [3; 1; 1; 8; 8; 8].
Definition pgn_widths : list Z := [1; 1; 8; 8].

(** j1939.py:7-15 [FrameId] and 18-24 [PGN] *)
Record frame_id := mkFrameId {
  fi_priority : Z; fi_reserved : Z; fi_data_page : Z; fi_pdu_format : Z; fi_pdu_specific : Z; fi_source : Z }.
Record pgn := mkPgn { pg_reserved : Z; pg_data_page : Z; pg_pdu_format : Z; pg_pdu_specific : Z }.

(** j1939.py:31-65 *)
Definition frame_id_pack (f : frame_id) : result Z :=
  let* packed := to_error (bit_pack frame_widths
     [fi_priority f; fi_reserved f; fi_data_page f; fi_pdu_format f; fi_pdu_specific f; fi_source f]) in
  bit_unpack1 29 packed.

(** j1939.py:68-79 *)
Definition frame_id_unpack (id : Z) : result frame_id :=
  let* packed := to_error (bit_pack [29] [id]) in
  let* l := bit_unpack frame_widths packed in
  match l with
  | [p; r; d; f; s; a] => Ok (mkFrameId p r d f s a)
  | _ => Err TypeError
  end.

(** j1939.py:82-110 *)
Definition pgn_pack (g : pgn) : result Z :=
  if (pg_pdu_format g <? 240) && negb (pg_pdu_specific g =? 0) then Err CantoolsError
  else
    let* packed := to_error (bit_pack pgn_widths [pg_reserved g; pg_data_page g; pg_pdu_format g; pg_pdu_specific g]) in
    bit_unpack1 18 packed.

(** j1939.py:113-124 *)
Definition pgn_unpack (n : Z) : result pgn :=
  let* packed := to_error (bit_pack [18] [n]) in
  let* l := bit_unpack pgn_widths packed in
  match l with
  | [r; d; f; s] => Ok (mkPgn r d f s)
  | _ => Err TypeError
  end.

(** j1939.py:127-143 *)
Definition pgn_from_frame_id (id : Z) : result Z :=
  let* u := frame_id_unpack id in
  let ps := if fi_pdu_format u <? 240 then 0 else fi_pdu_specific u in
  pgn_pack (mkPgn (fi_reserved u) (fi_data_page u) (fi_pdu_format u) ps).
