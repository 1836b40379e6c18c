(** Autosar: model of src/cantools/autosar/end_to_end.py, secoc.py and snakeauth.py. *)
From Verif Require Import Base PyNum Bitstruct J1939.

(** ** External library crccheck: CRCs without reflection.  crc8/AUTOSAR: polynomial 0x2F, start value
    0xFF, final xor 0xFF; crc16/AUTOSAR (CCITT-FALSE): polynomial 0x1021, no final xor.  Trusted. *)
Definition crc_bit (w poly x : Z) : Z :=
  let y := 2 * x mod 2 ^ w in if Z.testbit x (w - 1) then Z.lxor y poly else y.
Definition crc_byte (w poly c b : Z) : Z := Nat.iter 8 (crc_bit w poly) (Z.lxor c (b * 2 ^ (w - 8))).
Definition crc (w poly init xorout : Z) (data : list Z) : Z :=
  Z.lxor (fold_left (crc_byte w poly) data init) xorout.
Definition crc8_autosar (data : list Z) : Z := crc 8 0x2F 0xFF 0xFF data.
Definition crc16_autosar (init : Z) (data : list Z) : Z := crc 16 0x1021 init 0 data.

(** The data id of a call: given directly, or taken from the message's [autosar.e2e] (data_ids and
    payload_length; None if the message has no such properties). *)
Inductive e2e_source :=
| ById (id : Z)
| ByMessage (e2e : option (list Z * Z)).

(** [bytearray([x])] and [result[0] = x]: ValueError outside 0..255 *)
Definition byte_value (x : Z) : result Z := if (0 <=? x) && (x <? 256) then Ok x else Err ValueError.

(** Python slice [l[a:b]] for 0 <= a and any b: a negative b counts from the end *)
Definition py_slice (a b : Z) (l : list Z) : list Z :=
  slice a (if b <? 0 then Z.max 0 (b + zlen l) else b) l.

(** end_to_end.py:10-51 [compute_profile2_crc]; None is not protected.  Payload bytes are byte values. *)
Definition compute_profile2_crc (payload : list Z) (src : e2e_source) : result (option Z) :=
  if zlen payload <? 2 then Ok None
  else
    let* par :=
       match src with
       | ById id => Ok (Some (zlen payload, id))
       | ByMessage None => Ok None
       | ByMessage (Some (ids, plen)) =>
           if negb (zlen ids =? 16) then Ok None
           else Ok (Some (plen, nth (Z.to_nat (Z.land (nth 1 payload 0) 0xf)) ids 0))
       end in
    match par with
    | None => Ok None
    | Some (plen, id) =>
        let* i := byte_value id in
        Ok (Some (crc8_autosar (py_slice 1 plen payload ++ [i])))
    end.

(** end_to_end.py:53-74 *)
Definition apply_profile2_crc (payload : list Z) (src : e2e_source) : result (option (list Z)) :=
  let* c := compute_profile2_crc payload src in
  match c with
  | None => Ok None
  | Some c => let* b := byte_value c in Ok (Some (b :: skipn 1 payload))
  end.

(** end_to_end.py:77-93 *)
Definition check_profile2_crc (payload : list Z) (src : e2e_source) : result (option bool) :=
  let* c := compute_profile2_crc payload src in
  match c with
  | None => Ok None
  | Some c => Ok (Some (c =? nth 0 payload 0))
  end.

(** end_to_end.py:95-139 *)
Definition compute_profile5_crc (payload : list Z) (src : e2e_source) : result (option Z) :=
  if zlen payload <? 4 then Ok None
  else
    let par :=
       match src with
       | ById id => Some (zlen payload, id)
       | ByMessage None => None
       | ByMessage (Some (ids, plen)) =>
           if negb (zlen ids =? 1) then None else Some (plen, nth 0 ids 0)
       end in
    match par with
    | None => Ok None
    | Some (plen, id) =>
        let r := crc16_autosar 0xffff (py_slice 2 plen payload) in
        let r := crc16_autosar r [Z.land id 0xff] in
        Ok (Some (crc16_autosar r [Z.land (Z.shiftr id 8) 0xff]))
    end.

(** end_to_end.py:141-165 *)
Definition apply_profile5_crc (payload : list Z) (src : e2e_source) : result (option (list Z)) :=
  let* c := compute_profile5_crc payload src in
  match c with
  | None => Ok None
  | Some c => Ok (Some (Z.land c 0xff :: Z.land (Z.shiftr c 8) 0xff :: skipn 2 payload))
  end.

(** end_to_end.py:167-184 *)
Definition check_profile5_crc (payload : list Z) (src : e2e_source) : result (option bool) :=
  let* c := compute_profile5_crc payload src in
  match c with
  | None => Ok None
  | Some c => Ok (Some (c =? nth 0 payload 0 + Z.shiftl (nth 1 payload 0) 8))
  end.

(** ** Secure on-board communication *)

(** The bits of a byte string, most significant bit of each byte first *)
Definition bits_of (data : list Z) : list bool :=
  flat_map (fun b => map (fun i => Z.testbit b (7 - i)) (zrange 0 8)) data.
(** Bits to bytes; the last byte is filled with zeros *)
Definition byte_of (f : nat -> bool) : Z :=
  fold_left (fun acc i => 2 * acc + Z.b2z (f i)) (seq 0 8) 0.
Definition bytes_of (bits : list bool) : list Z :=
  map (fun j => byte_of (fun i => nth (8 * j + i) bits false)) (seq 0 (Nat.div (List.length bits + 7) 8)).

(** bitstruct fields 'u<w>' and 'r<w>'; a width of 0 is a bad format *)
Definition u_bits (w v : Z) : result (list bool) :=
  if w <=? 0 then Err StructError
  else let* x := pack_field FUns w (NInt v) in Ok (map (fun i => Z.testbit x (w - 1 - i)) (zrange 0 w)).
Definition r_bits (w : Z) (data : list Z) : result (list bool) :=
  if w <=? 0 then Err StructError
  else Ok (firstn (Z.to_nat w) (bits_of data ++ repeat false (Z.to_nat w))).

(** bitstruct.pack_into(fmt, buf, offset, ..) of a format that produces the given bits *)
Definition pack_into (bits : list bool) (offset : Z) (buf : list Z) : result (list Z) :=
  let b := bits_of buf in
  let n := (Z.to_nat offset + List.length bits)%nat in
  if (List.length b <? n)%nat then Err StructError
  else Ok (bytes_of (firstn (Z.to_nat offset) b ++ bits ++ skipn n b)).

(** autosar/secoc properties of a message: freshness_bit_length, freshness_tx_bit_length,
    auth_tx_bit_length, data_id, payload_length *)
Record secoc := mkSecoc { so_fresh : Z; so_fresh_tx : Z; so_auth_tx : Z; so_data_id : Z; so_payload : Z }.

(** An authenticator function for a fixed message: data and freshness value to authenticator.  It is
    assumed to be a function (no hidden state, no exception). *)
Definition authenticator := list Z -> Z -> list Z.

(** secoc.py:20-46 [compute_authenticator] *)
Definition auth_data (s : secoc) (payload : list Z) (fresh : Z) : result (list Z) :=
  let* a := u_bits 16 (so_data_id s) in
  let* b := r_bits (so_payload s * 8) (py_slice 0 (so_payload s) payload) in
  let* c := u_bits (so_fresh s) fresh in
  Ok (bytes_of (a ++ b ++ c)).
Definition compute_authenticator (s : secoc) (f : authenticator) (payload : list Z) (fresh : Z) : result (list Z) :=
  let* d := auth_data s payload fresh in Ok (f d fresh).

(** secoc.py:48-91 [apply_authenticator] (message with SecOC properties) *)
Definition apply_authenticator (s : secoc) (f : authenticator) (payload : list Z) (fresh : Z) : result (list Z) :=
  let* auth := compute_authenticator s f payload fresh in
  let mask := Z.shiftl 1 (so_fresh_tx s) - 1 in
  let* a := u_bits (so_fresh_tx s) (Z.land fresh mask) in
  let* b := r_bits (so_auth_tx s) auth in
  pack_into (a ++ b) (so_payload s * 8) payload.

Fixpoint bytes_eqb (a b : list Z) : bool :=
  match a, b with
  | [], [] => true
  | x :: a', y :: b' => (x =? y) && bytes_eqb a' b'
  | _, _ => false
  end.
(** secoc.py:93-105 [verify_authenticator] *)
Definition verify_authenticator (s : secoc) (f : authenticator) (payload : list Z) (fresh : Z) : result bool :=
  let* q := apply_authenticator s f payload fresh in Ok (bytes_eqb payload q).

(** snakeauth.py:22-36: [result[i % 5] ^= auth_data[i] ^ secret[i % len(secret)]] *)
Definition snake_oil (secret : list Z) : authenticator := fun data fresh =>
  map (fun j =>
         fold_left (fun acc i =>
                      if (i mod 5 =? j)%nat
                      then Z.lxor (Z.lxor acc (nth i data 0)) (nth (i mod List.length secret) secret 0)
                      else acc)
                   (seq 0 (List.length data)) (fresh mod 253))
      (seq 0 5).
