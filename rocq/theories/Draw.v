(** Draw: the drawing of a message layout (subparsers/dump/formatting.py layout_string).
    Lines and texts are lists of characters; [Z.to_nat] of a negative count is zero like a repeated string in Python. *)
From Coq Require Import Ascii.
From Verif Require Import Base PyNum Conversion Signal Message CSource CNames.
Local Open Scope string_scope.
Local Open Scope Z_scope.
Local Open Scope list_scope.

Definition txt (s : string) : chars := list_ascii_of_string s.
Definition rep (n : Z) (c : ascii) : chars := repeat c (Z.to_nat n).
Definition blanks (n : Z) : chars := rep n " ".

(** formatting.py:136-147 *)
Definition draw_big (s : signal) : chars := blanks (3 * start_bit s) ++ "<"%char :: rep (3 * s_length s - 2) "-" ++ ["x"%char].

(** [l[i:i + n] for i in range(0, len(l), n)] *)
Fixpoint chunks_aux {A} (fuel n : nat) (l : list A) : list (list A) :=
  match fuel, l with
  | S f, _ :: _ => firstn n l :: chunks_aux f n (skipn n l)
  | _, _ => []
  end.
Definition chunks {A} (n : nat) (l : list A) : list (list A) := chunks_aux (List.length l) n l.

(** formatting.py:149-169 *)
Definition draw_little (s : signal) : chars :=
  let f := blanks (3 * s_start s) ++ "x"%char :: rep (3 * s_length s - 2) "-" ++ ["<"%char] in
  let e := s_start s + s_length s in
  let f := if e mod 8 =? 0 then f else f ++ blanks (3 * (8 - e mod 8)) in
  List.concat (map (@rev ascii) (chunks 24 f)).

(** zip of lists *)
Fixpoint zip_aux {A} (n : nat) (ls : list (list A)) : list (list A) :=
  match n with
  | O => []
  | S n => if forallb (fun l => match l with [] => false | _ => true end) ls
           then flat_map (fun l => match l with [] => [] | x :: _ => [x] end) ls :: zip_aux n (map (@tl A) ls) else []
  end.
Definition zip {A} (ls : list (list A)) : list (list A) := match ls with [] => [] | l :: _ => zip_aux (List.length l) ls end.

Definition count_char (c : ascii) (l : list ascii) : nat := List.length (filter (Ascii.eqb c) l).
(** formatting.py:186-199 *)
Definition union_char (l : list ascii) : ascii :=
  let head := count_char "<" l in
  let dash := count_char "-" l in
  let tail := count_char "x" l in
  if (1 <? head + dash + tail)%nat then "X"%char
  else if (head =? 1)%nat then "<"%char else if (dash =? 1)%nat then "-"%char else if (tail =? 1)%nat then "x"%char else " "%char.

(** formatting.py:171-212: the lines of eight bits, three characters for each bit *)
Definition big_signals (l : list signal) := filter s_big l.
Definition little_signals (l : list signal) := filter (fun s => negb (s_big s)) l.
Definition signal_rows (l : list signal) : list chars := map draw_big (big_signals l) ++ map draw_little (little_signals l).
Definition row_length (rows : list chars) : nat :=
  let n := fold_right Nat.max O (map (@List.length ascii) rows) in
  if (n mod 24 =? 0)%nat then n else (n + (24 - n mod 24))%nat.
Definition pad_row (n : nat) (r : chars) : chars := r ++ repeat " "%char (n - List.length r).
Definition union_row (l : list signal) : chars :=
  let rows := signal_rows l in map union_char (zip (map (pad_row (row_length rows)) rows)).
Definition byte_rows (l : list signal) (length : Z) : list chars :=
  let b := chunks 24 (union_row l) in b ++ repeat (blanks 24) (Z.to_nat length - List.length b).

(** formatting.py:214-240: separators.  [prev] is the last character of the bit before. *)
Definition separator (first : bool) (prev c : ascii) : ascii :=
  if first || Ascii.eqb c " " || Ascii.eqb c "<" || Ascii.eqb c ">" || Ascii.eqb c "x" then "|"%char
  else if Ascii.eqb c "X" then (if Ascii.eqb prev "X" then "X"%char else if Ascii.eqb prev "-" then "-"%char else "|"%char)
  else "-"%char.
Fixpoint separate (first : bool) (prev : ascii) (triples : list chars) : chars :=
  match triples with
  | [] => ["|"%char]
  | t :: r => separator first prev (nth 0 t " "%char) :: t ++ separate false (nth 2 t " "%char) r
  end.
Definition byte_line (row : chars) : chars := separate true " " (chunks 3 row).

(** formatting.py:242-250 *)
Definition number_width (n : nat) : nat := (List.length (decimal (Z.of_nat n)) + 4)%nat.
Definition number_line (w : nat) (i : nat) (line : chars) : chars :=
  let d := decimal (Z.of_nat i) in repeat " "%char (w - 1 - List.length d) ++ d ++ " "%char :: line.
Definition rule : chars := txt "+---+---+---+---+---+---+---+---+".

(** formatting.py:273-279 *)
Definition name_bit (s : signal) : Z :=
  let offset := start_bit s + s_length s - 1 in
  if s_big s then 8 * (offset / 8) + (7 - offset mod 8) else offset.
(** Comparison of texts: the first different character decides. *)
Fixpoint chars_leb (a b : chars) : bool :=
  match a, b with
  | [], _ => true
  | _ :: _, [] => false
  | x :: a, y :: b => if Ascii.eqb x y then chars_leb a b else (nat_of_ascii x <? nat_of_ascii y)%nat
  end.
Definition label_leb (a b : Z * chars) : bool := (fst a <? fst b) || ((fst a =? fst b) && chars_leb (snd a) (snd b)).
(** formatting.py:281-313.  A negative byte number, which Python would take from the end, has no labels here. *)
Definition label_text (s : signal) : chars := txt "+-- " ++ list_ascii_of_string (s_name s).
Definition labels (l : list signal) (byte : nat) : list (Z * chars) :=
  sorted_py label_leb (map (fun s => (name_bit s mod 8, label_text s)) (filter (fun s => name_bit s / 8 =? Z.of_nat byte) l)).
Definition put (n : nat) (c : ascii) (l : chars) : chars := firstn n l ++ match skipn n l with [] => [] | _ :: r => c :: r end.
Definition label_line (w : nat) (all : list (Z * chars)) (x : Z * chars) : chars :=
  let line := blanks (4 * (7 - fst x)) ++ repeat " "%char w ++ txt "  " ++ snd x in
  fold_left (fun line o => if fst o >? fst x then put (w + 2 + Z.to_nat (4 * (7 - fst o))) "|" line else line) all line.
Definition label_lines (w : nat) (l : list signal) (byte : nat) : list chars := map (label_line w (labels l byte)) (labels l byte).

(** formatting.py:263-271, 315-328: the lines of byte number [i] of [n] *)
Definition byte_block (names : bool) (l : list signal) (w n : nat) (p : nat * chars) : list chars :=
  let r := repeat " "%char w ++ rule in
  number_line w (fst p) (byte_line (snd p)) :: r ::
  (if names then match label_lines w l (fst p) with [] => [] | ls => ls ++ (if (fst p + 1 <? n)%nat then [r] else []) end else []).
(** formatting.py:252-261 *)
Definition header (w : nat) : list chars :=
  let p := repeat " "%char w in
  [p ++ txt "               Bit"; p; p ++ txt "  7   6   5   4   3   2   1   0"; p ++ rule].
(** formatting.py:330-351 *)
Definition axis (lines : list chars) : list chars :=
  let n := zlen lines - 3 in
  let lines := if n <? 5 then lines ++ repeat (txt "     ") (Z.to_nat (5 - n)) else lines in
  let start := Z.to_nat (Z.max (4 + ((n - 4) / 2 - 1)) 4) in
  let a := repeat (txt "  ") start ++ [txt " B"; txt " y"; txt " t"; txt " e"] ++ repeat (txt "  ") (List.length lines - start - 4) in
  map (fun p => fst p ++ snd p) (combine a lines).
(** str.rstrip() *)
Definition is_white (c : ascii) : bool := let n := nat_of_ascii c in (n =? 32)%nat || ((9 <=? n)%nat && (n <=? 13)%nat) || ((28 <=? n)%nat && (n <=? 31)%nat).
Fixpoint rstrip (l : chars) : chars :=
  match l with
  | [] => []
  | c :: r => match rstrip r with [] => if is_white c then [] else [c] | r' => c :: r' end
  end.
(** '\n'.join(lines) *)
Fixpoint join_lines (l : list chars) : chars :=
  match l with [] => [] | [x] => x | x :: r => x ++ "010"%char :: join_lines r end.

(** formatting.py:97-361 *)
Definition drawing (names : bool) (l : list signal) (length : Z) : list chars :=
  let rows := byte_rows l length in
  let n := List.length rows in
  let w := number_width n in
  map rstrip (axis (header w ++ flat_map (byte_block names l w n) (combine (seq 0 n) rows))).
Definition layout_string (m : message) (signal_names : bool) : chars := join_lines (drawing signal_names (m_signals m) (m_length m)).
