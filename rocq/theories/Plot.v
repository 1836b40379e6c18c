(** Plot: which signals the plot command collects and where it draws them (src/cantools/subparsers/plot.py: Plotter.add_msg, Signals
    and Graph).  Texts are ASCII.  Not modelled: options among the signals of a subplot, so that no argument but "-" begins with
    "-", labels, colours and units, and matplotlib; a call of a plotting function of matplotlib is an element of a list. *)
From Coq Require Import Ascii.
From Verif Require Import Base CSource CNames Regex DbcNames Logreader DecodeCmd Xml ListCmd.
Local Open Scope string_scope.
Local Open Scope Z_scope.
Local Open Scope list_scope.
Definition newline : ascii := "010".

(** ** Texts *)
Definition backslash : ascii := "\".
(** re.escape *)
Definition special (c : ascii) : bool := existsb (Ascii.eqb c) (txt "()[]{}?*+-|^$\.&~# " ++ ["009"; "010"; "013"; "011"; "012"]%char).
Definition escape (t : chars) : chars := flat_map (fun c => if special c then [backslash; c] else [c]) t.
(** str.replace *)
Fixpoint replace_n (n : nat) (old new t : chars) : chars :=
  match n, t with
  | S n', c :: r => match after old t with Some r' => new ++ replace_n n' old new r' | None => c :: replace_n n' old new r end
  | _, _ => t
  end.
Definition replace (old new t : chars) : chars := replace_n (List.length t) old new t.
(** sub in t *)
Fixpoint contains (sub t : chars) : bool :=
  match after sub t with Some _ => true | None => match t with [] => false | _ :: r => contains sub r end end.
(** t.split(c, 1) if c is in t *)
Fixpoint cut_at (c : ascii) (t : chars) : option (chars * chars) :=
  match t with
  | [] => None
  | x :: r => if Ascii.eqb x c then Some ([], r) else match cut_at c r with Some (a, b) => Some (x :: a, b) | None => None end
  end.

(** ** The regular expressions *)
(** What the patterns of this command consist of: alternatives, each a sequence of characters, '.', '.*' and '$' *)
Inductive item := ILit (c : ascii) | IAny | IMany | IEnd.
Definition push (i : item) (l : list (list item)) : list (list item) := match l with a :: r => (i :: a) :: r | [] => [[i]] end.
Fixpoint items (t : chars) : list (list item) :=
  match t with
  | [] => [[]]
  | c :: r =>
      if Ascii.eqb c "|" then [] :: items r
      else if Ascii.eqb c "$" then push IEnd (items r)
      else if Ascii.eqb c backslash then match r with d :: r' => push (ILit d) (items r') | [] => push (ILit c) (items r) end
      else if Ascii.eqb c "." then
        match r with d :: r' => if Ascii.eqb d "*" then push IMany (items r') else push IAny (items r) | [] => push IAny (items r) end
      else push (ILit c) (items r)
  end.
Definition same_char (fold : bool) (a b : ascii) : bool := if fold then Ascii.eqb (to_lower a) (to_lower b) else Ascii.eqb a b.
Definition at_end (s : chars) : bool := match s with [] => true | [c] => Ascii.eqb c newline | _ => false end.
Fixpoint match_items (fold : bool) (l : list item) (s : chars) : bool :=
  match l with
  | [] => true
  | ILit c :: l' => match s with x :: s' => same_char fold c x && match_items fold l' s' | [] => false end
  | IAny :: l' => match s with x :: s' => negb (Ascii.eqb x newline) && match_items fold l' s' | [] => false end
  | IMany :: l' =>
      (fix many (s : chars) : bool := match_items fold l' s || match s with x :: s' => negb (Ascii.eqb x newline) && many s' | [] => false end) s
  | IEnd :: l' => at_end s && match_items fold l' s
  end.
(** re.compile(pattern, flags).match(s); [fold] is re.IGNORECASE *)
Definition re_match (fold : bool) (pattern s : chars) : bool := existsb (fun l => match_items fold l s) (items pattern).

(** ** The signals to be plotted *)
(** plot.py:762-793 class Signal, with the text and the flag of its regular expression *)
Record target := mkTarget { t_pattern : chars; t_fold : bool; t_subplot : Z; t_axis : Z; t_stem : bool; t_fmt : chars }.
Definition t_match (t : target) (name : chars) : bool := re_match (t_fold t) (t_pattern t) name.
(** 593-598: the pattern for a name with wildcards *)
Definition sep_sg : chars := [backslash; "."%char].
Definition wildcard_many : chars := [backslash; "*"%char].
Definition wildcard_one : chars := [backslash; "?"%char].
Definition pattern_of (signal : chars) : chars :=
  let s := escape signal in
  let s := if contains sep_sg s then s else wildcard_many ++ sep_sg ++ s in
  let s := replace wildcard_many (txt ".*") s in
  let s := replace wildcard_one (txt ".") s in
  s ++ txt "$".
(** 577-602 add_signal *)
Definition add_signal (case_sensitive : bool) (subplot axis : Z) (arg : chars) : target :=
  match cut_at ":" arg with
  | Some (s, fmt) =>
      match after (txt "|") fmt with
      | Some fmt' => mkTarget (pattern_of s) (negb case_sensitive) subplot axis true fmt'
      | None => mkTarget (pattern_of s) (negb case_sensitive) subplot axis false fmt
      end
  | None => mkTarget (pattern_of arg) (negb case_sensitive) subplot axis false []
  end.
(** list.index *)
Fixpoint index_of (x : chars) (l : list chars) : option nat :=
  match l with [] => None | y :: r => if chars_eqb y x then Some O else option_map S (index_of x r) end.
(** 527-560: [l] is signals[i0:] *)
Fixpoint place (fuel : nat) (case_sensitive : bool) (subplot axis : Z) (l : list chars) : list target * (Z * Z) :=
  let i1 := index_of (txt "-") l in
  let i12 := index_of (txt ",") l in
  let i := match i1, i12 with
           | None, _ => i12
           | Some a, Some b => if Nat.ltb b a then i12 else i1
           | Some _, None => i1
           end in
  match i, fuel with
  | Some n, S fuel' =>
      let here := map (add_signal case_sensitive subplot axis) (firstn n l) in
      let next := if chars_eqb (nth n l []) (txt "-") then (subplot + 1, 0) else (subplot, axis + 1) in
      let '(rest, last) := place fuel' case_sensitive (fst next) (snd next) (skipn (S n) l) in
      (here ++ rest, last)
  | _, _ => (map (add_signal case_sensitive subplot axis) l, (subplot, axis))
  end.
(** 511-565 without options *)
Definition targets (case_sensitive : bool) (signals : list chars) : list target :=
  let '(l, last) := place (List.length signals) case_sensitive 1 0 signals in
  match l with [] => [add_signal case_sensitive (fst last) (snd last) (txt "*")] | _ => l end.
(** 604-605: the pattern of everything that is to be plotted *)
Fixpoint join_bar (l : list chars) : chars := match l with [] => [] | [a] => a | a :: r => a ++ txt "|" ++ join_bar r end.
Definition displayed (l : list target) (name : chars) : bool := re_match true (join_bar (map t_pattern l)) name.

(** ** The values *)
Section Values.
  (** Values on the horizontal axis and on the vertical axis *)
  Context {X Y : Type}.
  (** [far a b]: a + break_time < b; [middle a]: a + break_time / 2; [breaks]: break_time is positive *)
  Context (breaks : bool) (far : X -> X -> bool) (middle : X -> X).
  Definition graph : Type := list (X * option Y).
  (** 609-629 add_value; the values are a dictionary of graphs *)
  Definition add_value (l : list target) (values : list (chars * graph)) (name : chars) (x : X) (y : Y) : list (chars * graph) :=
    if displayed l name then
      match dget chars_eqb values name with
      | None => dset chars_eqb values name [(x, Some y)]
      | Some g =>
          let gap := match rev g with (last_x, _) :: _ => if breaks && far last_x x then [(middle last_x, None)] else [] | [] => [] end in
          dset chars_eqb values name (g ++ gap ++ [(x, Some y)])
      end
    else values.

  (** 433-458 add_msg: [lookup] finds a message by its identifier, [name_of] and [decode] are its name and its decoding, in which
      named values are texts; any exception of decoding counts *)
  Context {M : Type} (lookup : Z -> option M) (name_of : M -> chars) (decode : M -> list Z -> result (list (chars * Y))).
  (** What is collected: the values, the marks for unknown frames and for invalid data, and the messages that are printed *)
  Inductive said := SaidUnknown (id : Z) | SaidInvalid (id : Z).
  Record plotter := mkPlotter { p_values : list (chars * graph); p_unknown : list X; p_invalid : list X; p_said : list said }.
  Record options := mkOptions { show_unknown : bool; show_invalid : bool; ignore_unknown : bool; ignore_invalid : bool }.
  Definition start : plotter := mkPlotter [] [] [] [].
  Definition add_msg (o : options) (l : list target) (p : plotter) (frame : X * Z * list Z) : plotter :=
    let '(x, id, data) := frame in
    match lookup id with
    | None => mkPlotter (p_values p) (if show_unknown o then p_unknown p ++ [x] else p_unknown p) (p_invalid p) (if ignore_unknown o then p_said p else p_said p ++ [SaidUnknown id])
    | Some m =>
        match decode m data with
        | Err _ => mkPlotter (p_values p) (p_unknown p) (if show_invalid o then p_invalid p ++ [x] else p_invalid p) (if ignore_invalid o then p_said p else p_said p ++ [SaidInvalid id])
        | Ok d => mkPlotter (fold_left (fun v s => add_value l v (name_of m ++ txt "." ++ fst s) x (snd s)) d (p_values p)) (p_unknown p) (p_invalid p) (p_said p)
        end
    end.
  Definition add_msgs (o : options) (l : list target) (frames : list (X * Z * list Z)) : plotter := fold_left (add_msg o l) frames start.

  (** ** Drawing *)
  (** 749-756 is_replotting_desired *)
  Definition replot (current previous : target) : bool := chars_eqb (t_pattern current) (t_pattern previous) || negb (existsb (Ascii.eqb ".") (t_pattern current)).
  (** A call of splot.plot or splot.stem *)
  Record call := mkCall { c_target : target; c_name : chars; c_graph : graph }.
  (** 660-686 for one target; [drawn] are the targets by which graphs were plotted first *)
  Fixpoint draw_names (t : target) (drawn : list (chars * target)) (values : list (chars * graph)) (names : list chars) : list call * list (chars * target) :=
    match names with
    | [] => ([], drawn)
    | n :: r =>
        let g := match dget chars_eqb values n with Some g => g | None => [] end in
        if t_match t n then
          match dget chars_eqb drawn n with
          | Some p =>
              let '(c, d) := draw_names t drawn values r in
              (if replot t p then mkCall t n g :: c else c, d)
          | None => let '(c, d) := draw_names t (dset chars_eqb drawn n t) values r in (mkCall t n g :: c, d)
          end
        else draw_names t drawn values r
    end.
  (** 634-689: the calls of each target; a warning is printed for those without a call *)
  Fixpoint draw_targets (l : list target) (drawn : list (chars * target)) (values : list (chars * graph)) (names : list chars) : list (target * list call) :=
    match l with
    | [] => []
    | t :: r => let '(c, d) := draw_names t drawn values names in (t, c) :: draw_targets r d values names
    end.
  Definition draw (l : list target) (values : list (chars * graph)) : list (target * list call) :=
    draw_targets l [] values (sorted_texts (map fst values)).
  Definition warned (r : list (target * list call)) : list target := map fst (filter (fun p => match snd p with [] => true | _ => false end) r).
End Values.
