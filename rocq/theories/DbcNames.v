(** DbcNames: model of the name and identifier conversions of database/can/formats/dbc.py: short names
    (LongNamesConverter), characters allowed in names, frame ids and multiplexer ranges.  Text is ASCII. *)
From Coq Require Import Ascii.
From Verif Require Import Base CSource CNames Regex.
Local Open Scope list_scope.
Local Open Scope Z_scope.

(** str < str for ASCII: lexicographic on character codes; [text_leb a b] is a <= b. *)
Fixpoint text_leb (a b : chars) : bool :=
  match a, b with
  | [], _ => true
  | _ :: _, [] => false
  | x :: a', y :: b' =>
      if N.ltb (code x) (code y) then true else if N.ltb (code y) (code x) then false else text_leb a' b'
  end.

(** dbc.py:547 sorted by (len(s), s) *)
Definition name_leb (a b : chars) : bool :=
  if Nat.ltb (List.length a) (List.length b) then true
  else if Nat.ltb (List.length b) (List.length a) then false else text_leb a b.

(** {index:04d} for a non-negative index *)
Definition pad4 (n : nat) : chars :=
  let d := decimal (Z.of_nat n) in repeat "0"%char (4 - List.length d) ++ d.

Definition names_map := list (chars * chars).
Definition nget (d : names_map) (n : chars) : option chars := dget chars_eqb d n.
Definition nset (d : names_map) (n v : chars) : names_map := dset chars_eqb d n v.

(** dbc.py:550-552 the while loop; [index] is the index of the next try (the code's index + 1).  With
    [fuel] above the number of names in use the loop ends by itself (C45_terminates). *)
Fixpoint free_short (fuel : nat) (used : names_map) (index : nat) (short : chars) : option chars :=
  match nget used short with
  | None => Some short
  | Some _ => match fuel with
              | O => None
              | S f => free_short f used (S index) (firstn 27 short ++ underscore :: pad4 index)
              end
  end.

(** dbc.py:542-555 [LongNamesConverter.__init__]: (long_to_short, short_to_long).  None: the loop has not
    ended after [fuel] rounds. *)
Definition convert_step (fuel : nat) (st : option (names_map * names_map)) (long : chars) :
  option (names_map * names_map) :=
  match st with
  | None => None
  | Some (l2s, s2l) =>
      match free_short fuel s2l 0 (firstn 32 long) with
      | None => None
      | Some short => Some (nset l2s long short, nset s2l short long)
      end
  end.
Definition convert_names_fuel (fuel : nat) (names : list chars) : option (names_map * names_map) :=
  fold_left (convert_step fuel) (sorted_py name_leb names) (Some ([], [])).
Definition convert_names (names : list chars) : option (names_map * names_map) :=
  convert_names_fuel (S (List.length names)) names.

(** dbc.py:566-573 [get_dbc_name]: re.sub(r'\W', '_', name), and '_' before a leading digit; name[0] fails on the
    empty name. *)
Definition get_dbc_name (name : chars) : result chars :=
  match map (fun c => if is_word c then c else underscore) name with
  | [] => Err IndexError
  | c :: r => Ok (if is_digit c then underscore :: c :: r else c :: r)
  end.

(** dbc.py:558-564 [get_dbc_frame_id] *)
Definition get_dbc_frame_id (frame_id : Z) (extended : bool) : Z :=
  if extended then Z.lor frame_id (2 ^ 31) else frame_id.
(** dbc.py:1912-1914: (frame_id, is_extended_frame) from the number in the file *)
Definition load_frame_id (dbc_id : Z) : Z * bool :=
  (Z.land dbc_id (2 ^ 31 - 1), negb (Z.land dbc_id (2 ^ 31) =? 0)).

(** ** Multiplexer ranges *)
(** dbc.py:1151-1164 the loop of [_create_mux_ranges]; [ranges] is kept with its last range first. *)
Definition range_step (st : Z * list (Z * Z)) (value : Z) : Z * list (Z * Z) :=
  let (prev, ranges) := st in
  (value,
   if value =? prev + 1
   then match ranges with (lo, _) :: r => (lo, value) :: r | [] => [] end
   else (value, value) :: ranges).
(** dbc.py:1142-1164 [_create_mux_ranges]: IndexError on the empty list. *)
Definition create_mux_ranges (ids : list Z) : result (list (Z * Z)) :=
  match sorted_py Z.leb ids with
  | [] => Err IndexError
  | (first :: _) as ordered => Ok (rev (snd (fold_left range_step ordered (first, []))))
  end.

(** dbc.py:1505-1512: the ids listed by the ranges of one SG_MUL_VAL_ entry *)
Definition range_ids (ranges : list (Z * Z)) : list Z :=
  flat_map (fun r => zrange (fst r) (snd r + 1)) ranges.
