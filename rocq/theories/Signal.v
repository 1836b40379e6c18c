(** Signal: model of src/cantools/database/can/signal.py (attributes used by the codec) and of the
    bit numbering and sorting helpers of src/cantools/database/utils.py. *)
From Verif Require Import Base PyNum Conversion.

(** signal.py:46-138.  Attributes that do not influence coding (unit, comments, receivers, dbc,
    spn) are left out. *)
Record signal := mkSignal {
  s_name : string;
  s_start : Z;
  s_length : Z;
  s_big : bool;                      (* byte_order == 'big_endian' *)
  s_signed : bool;
  s_conv : conversion;
  s_min : option num;
  s_max : option num;
  s_is_mux : bool;                   (* is_multiplexer *)
  s_mux_ids : option (list Z);       (* multiplexer_ids *)
  s_mux_sig : option string          (* multiplexer_signal *)
}.

(** utils.py:59-63 [start_bit]; Python // and % on ints are Z.div and Z.modulo *)
Definition start_bit (s : signal) : Z :=
  if s_big s then 8 * (s_start s / 8) + (7 - s_start s mod 8) else s_start s.

(** utils.py:299-306 [sawtooth_to_network_bitnum] *)
Definition sawtooth_to_network (b : Z) : Z := 8 * (b / 8) + (7 - b mod 8).

(** utils.py:309-320 [cdd_offset_to_dbc_start_bit] *)
Definition cdd_offset_to_dbc_start_bit (off len : Z) (big : bool) : Z :=
  if big then 8 * (off / 8) + Z.min 7 (off mod 8 + len - 1) else off.

(** utils.py:442-443 *)
Definition sort_signals_by_start_bit (l : list signal) : list signal :=
  sorted_py (fun a b => start_bit a <=? start_bit b) l.
(** utils.py:446-447 *)
Definition sort_signals_by_start_bit_reversed (l : list signal) : list signal :=
  rev (sort_signals_by_start_bit l).
(** utils.py:450-451 *)
Definition sort_signals_by_name (l : list signal) : list signal :=
  sorted_py (fun a b => String.leb (s_name a) (s_name b)) l.
(** utils.py:454-465; multiplexer_ids is truthy when neither None nor empty *)
Definition mux_truthy (s : signal) : bool :=
  match s_mux_ids s with Some (_ :: _) => true | _ => false end.
Definition mux_first (s : signal) : Z :=
  match s_mux_ids s with Some (i :: _) => i | _ => -1 end.
Definition sort_signals_by_start_bit_and_mux (l : list signal) : list signal :=
  sorted_py (fun a b => mux_first a <=? mux_first b)
    (sorted_py (fun a b => implb (mux_truthy a) (mux_truthy b))
       (sort_signals_by_start_bit l)).

(** The message constructor's [sort_signals] argument: message.py:103-108.
    [SortDefault] is utils.SORT_SIGNALS_DEFAULT or the default function, [SortUser f] a callable. *)
Inductive sort_arg :=
| SortDefault
| SortNone
| SortUser (f : list signal -> list signal).
Definition apply_sort (a : sort_arg) (l : list signal) : list signal :=
  match a with
  | SortDefault => sort_signals_by_start_bit l
  | SortNone => l
  | SortUser f => f l
  end.
