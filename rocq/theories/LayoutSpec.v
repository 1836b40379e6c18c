(** LayoutSpec: the documented meaning of a message layout, independent of the codec.

    Sources: the class documentation of Signal (src/cantools/database/can/signal.py:11-44) for bit
    positions, and of multiplexer_signal / multiplexer_ids (signal.py:124-134) for selection.
    Nothing here refers to formats, codec trees or bitstruct. *)
From Coq Require Import Floats.SpecFloat.
From Verif Require Import Base PyNum Conversion Signal.

(** Bit number [b] of a payload as in the signal.py pictures: byte b/8, bit b mod 8 (0 = LSB). *)
Definition payload_bit (data : list Z) (b : Z) : bool :=
  Z.testbit (nth (Z.to_nat (b / 8)) data 0) (b mod 8).

(** Big endian: the bit after (less significant than) bit [b]: one lower in the byte, or the most
    significant bit of the next byte. *)
Definition be_next (b : Z) : Z := if b mod 8 =? 0 then b + 15 else b - 1.

(** Position of bit [k] (0 = LSB) of a signal. *)
Definition bit_pos (s : signal) (k : Z) : Z :=
  if s_big s then Nat.iter (Z.to_nat (s_length s - 1 - k)) be_next (s_start s)
  else s_start s + k.

(** The signal occupies payload bit [b]. *)
Definition occupies (s : signal) (b : Z) : Prop :=
  exists k, 0 <= k < s_length s /\ bit_pos s k = b.

Definition sig_disjoint (s t : signal) : Prop := forall b, occupies s b -> occupies t b -> False.

(** All bits of the signal exist in a frame of [n] bytes. *)
Definition sig_fits (n : Z) (s : signal) : Prop :=
  forall b, occupies s b -> 0 <= b < 8 * n.

(** The signal lies completely in the first [n] bytes (for truncated frames). *)
Definition sig_within (n : Z) (s : signal) : Prop := sig_fits n s.

(** ** Numbers denoted by bits *)

(** Unsigned number with binary digits [f 0 .. f (n-1)]. *)
Fixpoint digits (f : Z -> bool) (n : nat) : Z :=
  match n with
  | O => 0
  | S n' => digits f n' + (if f (Z.of_nat n') then 2 ^ Z.of_nat n' else 0)
  end.

(** Raw integer stored in the payload bits of a signal: binary or two's complement. *)
Definition read_int (data : list Z) (s : signal) : Z :=
  let u := digits (fun k => payload_bit data (bit_pos s k)) (Z.to_nat (s_length s)) in
  if s_signed s && payload_bit data (bit_pos s (s_length s - 1)) then u - 2 ^ s_length s else u.

(** Raw value including IEEE floats. *)
Definition read_raw (data : list Z) (s : signal) : num :=
  if conv_is_float (s_conv s) then
    NFlt (bits_to_float (s_length s)
            (digits (fun k => payload_bit data (bit_pos s k)) (Z.to_nat (s_length s))))
  else NInt (read_int data s).

(** Range of raw integers of a signal. *)
Definition int_fits (s : signal) (z : Z) : Prop :=
  if s_signed s then - 2 ^ (s_length s - 1) <= z < 2 ^ (s_length s - 1)
  else 0 <= z < 2 ^ s_length s.

(** [raw_bits s v x]: raw value [v] of the signal is representable and [x] has its binary digits. *)
Definition raw_bits (s : signal) (v : num) (x : Z) : Prop :=
  if conv_is_float (s_conv s) then float_to_bits (s_length s) v = Ok x
  else match v with NInt z => int_fits s z /\ x = z | NFlt _ => False end.

(** ** Multiplexing *)

(** [mv name] is the value of multiplexer signal [name]. *)
Inductive active (all : list signal) (mv : string -> option Z) : signal -> Prop :=
| active_root : forall s, In s all -> s_mux_sig s = None -> active all mv s
| active_child : forall s m v ids,
    In s all -> s_mux_sig s = Some (s_name m) ->
    active all mv m -> s_is_mux m = true -> mv (s_name m) = Some v ->
    s_mux_ids s = Some ids -> In v ids ->
    active all mv s.

Definition names_unique (l : list signal) : Prop := NoDup (map s_name l).
