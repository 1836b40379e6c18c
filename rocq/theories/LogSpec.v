(** LogSpec: how candump and PCAN-View print a frame; independent of the patterns of the log reader. *)
From Coq Require Import Ascii.
From Verif Require Import Base CSource Regex Logreader.
Local Open Scope string_scope.
Local Open Scope Z_scope.
Local Open Scope list_scope.

(** %0<w>X *)
Definition hexdigit (n : Z) : ascii := nth (Z.to_nat n) (txt "0123456789ABCDEF") "0"%char.
Fixpoint hex_fixed (w : nat) (n : Z) : chars :=
  match w with O => [] | S w' => hex_fixed w' (n / 16) ++ [hexdigit (n mod 16)] end.
(** %0<w>d *)
Fixpoint dec_fixed (w : nat) (n : Z) : chars :=
  match w with O => [] | S w' => dec_fixed w' (n / 10) ++ [hexdigit (n mod 10)] end.

Definition spaces (n : nat) : chars := repeat " "%char n.
(** At least one white space character *)
Definition blank (w : chars) : Prop := w <> [] /\ forallb is_space w = true.
(** A non-empty text of the class *)
Definition run (p : ascii -> bool) (w : chars) : Prop := w <> [] /\ forallb p w = true.

(** Bytes, each followed by some spaces *)
Definition data_text (l : list (Z * nat)) : chars := flat_map (fun e => hex_fixed 2 (fst e) ++ spaces (snd e)) l.

(** What candump prints after the data: nothing, or the data as ASCII in quotes *)
Definition ascii_tail (t : chars) : Prop := t = [] \/ exists u, t = "'"%char :: u /\ forallb dot u = true.

Definition candump_id (ext : bool) (id : Z) : chars := hex_fixed (if ext then 8 else 3) id.
Definition candump_id_ok (ext : bool) (id : Z) : Prop := 0 <= id < (if ext then 2 ^ 32 else 2 ^ 12).

(** <channel> <id> [<length>] <what follows>, with arbitrary white space between the columns *)
Record columns := mkColumns { co_channel : chars; co_w1 : chars; co_ext : bool; co_id : Z; co_w2 : chars; co_len : chars; co_w3 : chars }.
Definition columns_ok (c : columns) : Prop :=
  run non_space (co_channel c) /\ blank (co_w1 c) /\ candump_id_ok (co_ext c) (co_id c) /\ blank (co_w2 c) /\
  run is_digit (co_len c) /\ forallb is_space (co_w3 c) = true.
Definition columns_text (c : columns) (payload : chars) : chars :=
  co_channel c ++ co_w1 c ++ candump_id (co_ext c) (co_id c) ++ co_w2 c ++ "["%char :: co_len c ++ "]"%char :: co_w3 c ++ payload.

Definition data_ok (l : list (Z * nat)) : Prop := Forall (fun e => byte_ok (fst e)) l.

(** Seconds with a fraction *)
Definition seconds_text (a b : chars) : chars := a ++ "."%char :: b.

(** A calendar date as printed by candump -tA *)
Record date := mkDate { d_year : Z; d_month : Z; d_day : Z; d_hour : Z; d_minute : Z; d_second : Z; d_frac : chars }.
Definition days_in (y m : Z) : Z :=
  match m with
  | 4 | 6 | 9 | 11 => 30
  | 2 => if (y mod 4 =? 0) && negb (y mod 100 =? 0) || (y mod 400 =? 0) then 29 else 28
  | _ => 31
  end.
Definition date_valid (d : date) : Prop :=
  1 <= d_year d <= 9999 /\ 1 <= d_month d <= 12 /\ 1 <= d_day d <= days_in (d_year d) (d_month d) /\
  0 <= d_hour d <= 23 /\ 0 <= d_minute d <= 59 /\ 0 <= d_second d <= 59 /\
  run is_digit (d_frac d) /\ (List.length (d_frac d) <= 6)%nat.
Definition date_text (d : date) : chars :=
  dec_fixed 4 (d_year d) ++ "-"%char :: dec_fixed 2 (d_month d) ++ "-"%char :: dec_fixed 2 (d_day d) ++ " "%char ::
  dec_fixed 2 (d_hour d) ++ ":"%char :: dec_fixed 2 (d_minute d) ++ ":"%char :: dec_fixed 2 (d_second d) ++ "."%char :: d_frac d.

(** PCAN: ids have four or eight digits; the data column holds bytes or RTR. *)
Definition pcan_id_text (ext : bool) (id : Z) : chars := hex_fixed (if ext then 8 else 4) id.
Definition pcan_id_ok (ext : bool) (id : Z) : Prop := 0 <= id < (if ext then 2 ^ 32 else 2 ^ 16).
Inductive pcan_payload := Bytes (l : list (Z * nat)) | Rtr.
Definition payload_text (p : pcan_payload) : chars := match p with Bytes l => data_text l | Rtr => txt "RTR" end.
Definition payload_ok (p : pcan_payload) : Prop := match p with Bytes l => data_ok l | Rtr => True end.
Definition payload_bytes (p : pcan_payload) : list Z := match p with Bytes l => map fst l | Rtr => [] end.
Definition payload_remote (p : pcan_payload) : bool := match p with Bytes _ => false | Rtr => true end.

(** The columns of a PCAN trace; every version prints some of them, separated by arbitrary white space. *)
Record pcan := mkPcan {
  pc_w0 : chars; pc_idx : chars; pc_wt : chars; pc_a : chars; pc_b : chars; pc_w1 : chars; pc_chan : ascii; pc_w2 : chars;
  pc_type : chars; pc_w3 : chars; pc_ext : bool; pc_id : Z; pc_w4 : chars; pc_rxtx : chars; pc_w5 : chars; pc_w6 : chars;
  pc_dlc : chars; pc_w7 : chars; pc_payload : pcan_payload }.
Definition pcan_ok (p : pcan) : Prop :=
  forallb is_space (pc_w0 p) = true /\ run is_digit (pc_idx p) /\ blank (pc_wt p) /\ run is_digit (pc_a p) /\ run is_digit (pc_b p) /\
  blank (pc_w1 p) /\ is_digit (pc_chan p) = true /\ blank (pc_w2 p) /\
  run is_word (pc_type p) /\ is_digit (hd "A"%char (pc_type p)) = false /\
  blank (pc_w3 p) /\ pcan_id_ok (pc_ext p) (pc_id p) /\ blank (pc_w4 p) /\ run is_word (pc_rxtx p) /\ blank (pc_w5 p) /\ blank (pc_w6 p) /\
  run is_digit (pc_dlc p) /\ blank (pc_w7 p) /\ payload_ok (pc_payload p).
Definition pc_idt (p : pcan) : chars := pcan_id_text (pc_ext p) (pc_id p).
Definition pc_end (p : pcan) : chars := pc_dlc p ++ pc_w7 p ++ payload_text (pc_payload p).
Definition pc_index1 (p : pcan) (rest : chars) : chars := pc_w0 p ++ pc_idx p ++ ")"%char :: pc_wt p ++ rest.
Definition pc_time (p : pcan) (rest : chars) : chars := pc_a p ++ "."%char :: pc_b p ++ pc_w1 p ++ rest.
Definition v10_text (p : pcan) : chars := pc_index1 p (pc_a p ++ pc_w1 p ++ pc_idt p ++ pc_w4 p ++ pc_end p).
Definition v11_text (p : pcan) : chars := pc_index1 p (pc_time p (pc_type p ++ pc_w3 p ++ pc_idt p ++ pc_w4 p ++ pc_end p)).
Definition v12_text (p : pcan) : chars := pc_index1 p (pc_time p (pc_chan p :: pc_w2 p ++ pc_type p ++ pc_w3 p ++ pc_idt p ++ pc_w4 p ++ pc_end p)).
Definition v13_text (p : pcan) : chars :=
  pc_index1 p (pc_time p (pc_chan p :: pc_w2 p ++ pc_type p ++ pc_w3 p ++ pc_idt p ++ pc_w4 p ++ "-"%char :: pc_w5 p ++ pc_end p)).
Definition v20_text (p : pcan) : chars :=
  pc_w0 p ++ pc_idx p ++ pc_wt p ++ pc_time p (pc_type p ++ pc_w3 p ++ pc_idt p ++ pc_w4 p ++ pc_rxtx p ++ pc_w5 p ++ pc_end p).
Definition v21_text (p : pcan) : chars :=
  pc_w0 p ++ pc_idx p ++ pc_wt p ++
  pc_time p (pc_type p ++ pc_w2 p ++ pc_chan p :: pc_w3 p ++ pc_idt p ++ pc_w4 p ++ pc_rxtx p ++ pc_w5 p ++ "-"%char :: pc_w6 p ++ pc_end p).
