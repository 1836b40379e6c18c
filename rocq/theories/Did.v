(** Did: model of src/cantools/database/diagnostics/did.py.

    Data objects (diagnostics/data.py:8-50) have the coding attributes of signals, are never
    multiplexed and always unsigned (data.py:50); we reuse [signal] for them. *)
From Verif Require Import Base PyNum Conversion Signal Formats.

(** did.py:19-36 *)
Record did := mkDid {
  did_length : Z;
  did_datas : list signal;
  did_formats : formats      (* _codec *)
}.

(** did.py:19-36 [__init__] and 169-178 [refresh]: the datas are not sorted *)
Definition mk_did (len : Z) (datas : list signal) : result did :=
  let* f := create_formats datas len in Ok (mkDid len datas f).

(** Python [hex(z)[2:]] for a positive number, as a list of digit values *)
Definition hex_digits (z : Z) : list Z :=
  map (fun i => z / 16 ^ Z.of_nat i mod 16) (rev (seq 0 (Z.to_nat (Z.log2 z / 4 + 1)))).
(** [binascii.unhexlify]: binascii.Error is a ValueError *)
Fixpoint unhexlify (l : list Z) : result (list Z) :=
  match l with
  | [] => Ok []
  | [_] => Err ValueError
  | a :: b :: r => let* t := unhexlify r in Ok (16 * a + b :: t)
  end.

(** did.py:95-116 [encode] *)
Definition did_encode (m : did) (d : list (string * value)) (scaling : bool) : result (list Z) :=
  let* e := encode_data d (did_datas m) (did_formats m) scaling in
  let* b := unhexlify (skipn 2 (hex_digits (Z.lor e (Z.shiftl 0x80 (8 * did_length m))))) in
  Ok (slice 0 (did_length m) b).

(** did.py:118-145 [decode] *)
Definition did_decode (m : did) (data : list Z) (dc sc at_ ae : bool) : result (list (string * value)) :=
  decode_data (slice 0 (did_length m) data) (did_length m) (did_datas m) (did_formats m) dc sc at_ ae.
