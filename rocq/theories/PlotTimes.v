(** PlotTimes: what --start and --stop of the plot command mean if the times of the log are relative
    (src/cantools/subparsers/plot.py: TimestampParser.parse_user_input_relative_time and strptimedelta_in_seconds).
    Texts are ASCII.  float is a parameter; seconds are exact rational numbers, the rounding of float is not modelled. *)
From Coq Require Import Ascii QArith.
From Verif Require Import Base CSource Regex Logreader.
Local Open Scope string_scope.
Local Open Scope Z_scope.
Local Open Scope list_scope.

(** plot.py:158-168: the patterns *)
Definition patterns_hour : list string := ["%H:%M:"; "%H:%M:%S"; "%H:%M:%S.%f"].
Definition patterns_minute : list string := [":%M:%S"; "%M:%S."; "%M:%S.%f"].
Definition patterns_day : list string :=
  let l := ["%d day"; "%d days"] in
  l ++ flat_map (fun d => map (fun t => (d ++ ", " ++ t)%string) ("%H:%M" :: patterns_hour)) l.
Definition patterns : list string := patterns_minute ++ patterns_hour ++ patterns_day.

(** plot.py:183-195: a pattern as a regular expression.  The code replaces each directive by a name in braces, escapes the whole
    text and replaces the escaped names by groups; here the directives are read from the pattern and other characters stand for
    themselves. *)
Inductive item := Field (name : string) (many : bool) | Char (c : ascii).
Definition directive (c : ascii) : item :=
  if Ascii.eqb c "H" then Field "hour" false else if Ascii.eqb c "M" then Field "min" false else
  if Ascii.eqb c "S" then Field "s" false else if Ascii.eqb c "f" then Field "ms" true else
  if Ascii.eqb c "d" then Field "day" false else Char c.
Fixpoint items (p : chars) : list item :=
  match p with
  | [] => []
  | x :: r => if Ascii.eqb x "%" then match r with d :: r' => directive d :: items r' | [] => [Char x] end else Char x :: items r
  end.
Definition item_re (i : item) : re :=
  match i with
  | Field n false => Group n (Seq (Chr is_digit) (Opt (Chr is_digit)))
  | Field n true => Group n (Plus true (Chr is_digit))
  | Char c => ch c
  end.
Definition items_re (l : list item) : re := fold_right (fun i r => Seq (item_re i) r) Eol l.

(** plot.py:200-203: the value; a group that is missing is "0" *)
Definition field (c : caps) (n : string) : chars := match group c n with Some t => t | None => txt "0" end.
Definition seconds_of (c : caps) : Q :=
  let s := (inject_Z (dec_int (field c "s" ++ field c "ms")) / inject_Z (10 ^ Z.of_nat (List.length (field c "ms"))))%Q in
  (inject_Z (((dec_int (field c "day") * 24 + dec_int (field c "hour")) * 60 + dec_int (field c "min")) * 60) + s)%Q.
(** plot.py:177-203 strptimedelta_in_seconds *)
Definition time_delta (t : chars) (p : string) : option Q := option_map seconds_of (re_match (items_re (items (txt p))) t).

Section Float.
  Context (float_of : chars -> option Q).
  Fixpoint first_fit (t : chars) (l : list string) : result Q :=
    match l with [] => Err ValueError | p :: r => match time_delta t p with Some q => Ok q | None => first_fit t r end end.
  (** plot.py:153-175 parse_user_input_relative_time *)
  Definition relative_time (t : chars) : result Q := match float_of t with Some q => Ok q | None => first_fit t patterns end.
End Float.
