(** TreeDraw: the drawing of the signal tree of a message and the list of its value tables
    (subparsers/dump/formatting.py:17-93 signal_tree_string without comments, 362-379 signal_choices_string).

    Names of signals are identifiers, so that textwrap.wrap sees one word (no white space and no hyphen).  A line of a signal
    is one text, in which textwrap.wrap may have put line ends. *)
From Coq Require Import Ascii.
From Verif Require Import Base PyNum Conversion Signal Message CSource CNames.
Local Open Scope string_scope.
Local Open Scope Z_scope.
Local Open Scope list_scope.

Definition txt (s : string) : chars := list_ascii_of_string s.
Definition newline : ascii := "010".
(** [sep.join(lines)] *)
Fixpoint join_lines (l : list chars) : chars := match l with [] => [] | [a] => a | a :: r => a ++ newline :: join_lines r end.

(** formatting.py:22-26 [get_prefix]: [rest] are the entries after this one *)
Definition get_prefix {A} (rest : list A) : chars := match rest with [] => txt "    " | _ => txt "|   " end.
(** 28-29 *)
Definition add_prefix (prefix : chars) (lines : list chars) : list chars := map (fun l => prefix ++ l) lines.

(** textwrap.wrap of one word: what does not fit into the first line is broken, and since the indentation of the other lines is
    wider than the word they take one character each.  No line at all for no word. *)
Definition wrap_word (width : Z) (word : chars) : result (list chars) :=
  if width <=? 0 then Err ValueError else
  match word with
  | [] => Ok []
  | _ =>
      let n := Z.to_nat (Z.max 1 (width - 4)) in
      Ok ((txt "+-- " ++ firstn n word) :: map (fun c => repeat " "%char (8 + List.length word) ++ [c]) (skipn n word))
  end.
(** 31-50 [format_signal_line], without comments *)
Definition format_signal_line (sigs : list signal) (console_width : Z) (name : string) : result chars :=
  let* _ := get_signal sigs name in
  let* l := wrap_word (console_width - 2) (txt name) in
  Ok (join_lines l).

(** [str(choice)]: namedsignalvalue.py:45-46 *)
Definition choice_text (c : choice) : chars := match c with ChStr s => txt s | ChNamed _ n => txt n end.
(** 59-66: [multiplexer_desc] *)
Definition multiplexer_desc (sel : signal) (i : Z) : chars :=
  match conv_choices (s_conv sel) with
  | Some l => match zget l i with Some c => choice_text c ++ txt " (" ++ decimal i ++ txt ")" | None => decimal i end
  | None => decimal i
  end.
(** 58-70: the loop of [format_mux]; [rows] are the ids with the lines of the signals below them *)
Fixpoint mux_lines (sel : signal) (rows : list (Z * list chars)) : list chars :=
  match rows with
  | [] => []
  | (i, ls) :: r => (txt "+-- " ++ multiplexer_desc sel i) :: add_prefix (get_prefix r) ls ++ mux_lines sel r
  end.
(** 52-90: [format_mux] and [format_level_lines] *)
Fixpoint level_lines (sigs : list signal) (w : Z) (t : stree) : result (list chars) :=
  match t with
  | STree nodes =>
      (fix go (nodes : list (string * option (list (Z * stree)))) : result (list chars) :=
         match nodes with
         | [] => Ok []
         | (name, sub) :: r =>
             let* below :=
               match sub with
               | None => Ok []
               | Some ids =>
                   let* sel := get_signal sigs name in
                   let* rows := (fix each (ids : list (Z * stree)) : result (list (Z * list chars)) :=
                                   match ids with
                                   | [] => Ok []
                                   | (i, t') :: r' => let* ls := level_lines sigs w t' in let* rs := each r' in Ok ((i, ls) :: rs)
                                   end) ids in
                   Ok (add_prefix (get_prefix r) (mux_lines sel (sort_cases rows)))
               end in
             let* line := format_signal_line sigs w name in
             let* rest := go r in
             Ok (line :: below ++ rest)
         end) nodes
  end.
(** 90-93 *)
Definition tree_lines (m : message) (w : Z) : result (list chars) :=
  let* l := level_lines (m_signals m) w (m_tree m) in
  Ok (txt "-- {root}" :: add_prefix (txt "   ") l).
Definition signal_tree_string (m : message) (w : Z) : result chars := let* l := tree_lines m w in Ok (join_lines l).

(** 362-379 [signal_choices_string]; [_signals] are the signals of the message *)
Definition choices_lines (m : message) : list chars :=
  flat_map (fun s => match conv_choices (s_conv s) with
                     | Some (c :: l) => [] :: txt (s_name s) :: map (fun p => txt "    " ++ decimal (fst p) ++ txt " " ++ choice_text (snd p)) (sort_cases (c :: l))
                     | _ => []
                     end) (m_signals m).
Definition signal_choices_string (m : message) : chars := join_lines (choices_lines m).
