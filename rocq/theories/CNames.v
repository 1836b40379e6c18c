(** CNames: model of src/cantools/database/can/c_source.py: range checks and choice names. *)
From Coq Require Import Ascii DecimalString.
From Verif Require Import Base PyNum Conversion Signal CSource.

(** ** is_in_range, integer signals *)

(** c_source.py:724-756 [minimum_ctype_value], [maximum_ctype_value] *)
Definition ctype_min (s : signal) : Z := if s_signed s then - 2 ^ (type_length s - 1) else 0.
Definition ctype_max (s : signal) : Z := if s_signed s then 2 ^ (type_length s - 1) - 1 else 2 ^ type_length s - 1.
(** c_source.py:758-775 [minimum_can_raw_value], [maximum_can_raw_value] *)
Definition can_raw_min (s : signal) : Z := if s_signed s then - 2 ^ (s_length s - 1) else 0.
Definition can_raw_max (s : signal) : Z := if s_signed s then 2 ^ (s_length s - 1) - 1 else 2 ^ s_length s - 1.

(** c_source.py:1272-1323 [_generate_is_in_range] for signals that are not floats: the bounds that
    are emitted.  signal.scaled_to_raw is conversion.scaled_to_raw. *)
Definition lower_bound (s : signal) : result (option Z) :=
  let* m := match s_min s with
            | Some v => let* r := scaled_to_raw (s_conv s) (VNum v) in Ok (Some r)
            | None => Ok (if ctype_min s <? can_raw_min s then Some (NInt (can_raw_min s)) else None)
            end in
  match m with
  | None => Ok None
  | Some r => let* z := py_round r in Ok (if ctype_min s <? z then Some z else None)
  end.
Definition upper_bound (s : signal) : result (option Z) :=
  let* m := match s_max s with
            | Some v => let* r := scaled_to_raw (s_conv s) (VNum v) in Ok (Some r)
            | None => Ok (if can_raw_max s <? ctype_max s then Some (NInt (can_raw_max s)) else None)
            end in
  match m with
  | None => Ok None
  | Some r => let* z := py_round r in Ok (if z <? ctype_max s then Some z else None)
  end.

(** Value of the emitted literal: with the suffixes u and ull (c_source.py:663-675) a minus sign is applied
    to an unsigned number.  Literals beyond 64 bits are not considered. *)
Definition c_literal (s : signal) (z : Z) : Z :=
  if s_signed s then z
  else if z <? 0 then (if (type_length s <=? 32) && (- z <? 2 ^ 32) then z + 2 ^ 32 else z + 2 ^ 64)
  else z.

(** The emitted function, for a value of the member's type.  An error means the generator fails. *)
Definition is_in_range (s : signal) (value : Z) : result bool :=
  let* lo := lower_bound s in
  let* hi := upper_bound s in
  Ok (match lo with Some z => c_literal s z <=? value | None => true end &&
      match hi with Some z => value <=? c_literal s z | None => true end).

(** ** Choice names *)

(** str(value) *)
Definition decimal (z : Z) : chars := list_ascii_of_string (NilZero.string_of_int (Z.to_int z)).
(** str.upper() for ASCII *)
Definition upper (l : chars) : chars := map to_upper l.

Definition chars_eqb (a b : chars) : bool := if list_eq_dec ascii_dec a b then true else false.
Definition chars_in (x : chars) (l : list chars) : bool := existsb (chars_eqb x) l.
Definition count (x : chars) (l : list chars) : nat := List.length (filter (chars_eqb x) l).

(** The while loop of 717-718; [fuel] is larger than the number of names. *)
Fixpoint free_name (fuel : nat) (name : chars) (taken : list chars) : chars :=
  match fuel with
  | O => name
  | S f => if chars_in name taken then free_name f (name ++ [underscore]) taken else name
  end.

(** c_source.py:688-722 [unique_choices], given the converted names [items].  [names.count(name) > 1] is also
    the condition for being in duplicated_names. *)
Definition make_unique (items : list (Z * chars)) : list (Z * chars) :=
  let names := map snd items in
  fold_left (fun u vn =>
               if Nat.ltb 1 (count (snd vn) names)
               then zset u (fst vn) (free_name (S (List.length u)) (snd vn ++ canonical (underscore :: decimal (fst vn))) (map snd u))
               else u)
            items (filter (fun vn => Nat.eqb (count (snd vn) names) 1) items).
Definition choice_items (ch : choices_t) : list (Z * chars) :=
  map (fun vc => (fst vc, upper (snake_chars (list_ascii_of_string (choice_str (snd vc)))))) ch.
Definition unique_choices (ch : choices_t) : list (Z * chars) := make_unique (choice_items ch).

(** c_source.py:1228-1242 [_format_choices]: the macro names after the database and message prefix. *)
Definition choice_macros (s : signal) : list chars :=
  match conv_choices (s_conv s) with
  | None => []
  | Some ch => map (fun vn => upper (snake_chars (list_ascii_of_string (s_name s))) ++ underscore :: snd vn ++ list_ascii_of_string "_CHOICE")
                 (unique_choices ch)
  end.
