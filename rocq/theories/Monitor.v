(** Monitor: model of src/cantools/subparsers/monitor.py, the text based monitor, as a state machine.

    Parameters: compiling a regular expression (None if it is invalid) into a search function, the texts of
    floats and time stamps, the units and initial values of the signals, and the text of a DecodeError.  Curses,
    python-can, argument parsing and the sleep between ticks are not modelled; the terminal has at least three rows. *)
From Coq Require Import Ascii Floats.SpecFloat.
From Verif Require Import Base PyNum Conversion Signal Message Container Database CSource CNames Regex Logreader DecText DecodeCmd.
Local Open Scope string_scope.
Local Open Scope Z_scope.
Local Open Scope list_scope.

Notation tget := (dget chars_eqb).
Notation tset := (dset chars_eqb).
Notation tmem := (dmem chars_eqb).

(** can.Message: arbitration_id, is_extended_id, timestamp (in an arbitrary unit), data *)
Record raw_message := mkRaw { rm_id : Z; rm_ext : bool; rm_time : Z; rm_data : list Z }.

(** curses key names; control characters are [Char] *)
Inductive keypress := Char (c : ascii) | KUp | KDown | KPageUp | KPageDown | KLeft | KRight | KBackspace | KDelete | KOther.

(** monitor.py:41-60: the attributes *)
Record state := mkState {
  names : list chars;                     (* _filtered_sorted_message_names *)
  formatted : list (chars * list chars);  (* _formatted_messages *)
  raws : list (chars * raw_message);      (* _raw_messages *)
  msigs : list (chars * list chars);      (* _message_signals *)
  fsigs : list (chars * list chars);      (* _message_filtered_signals *)
  with_error : list chars;                (* _messages_with_error *)
  playing : bool;
  modified : bool;
  show_filter : bool;
  filter_text : chars;
  cursor : nat;                           (* _filter_cursor_pos *)
  old_filter : option chars;              (* None: no such attribute *)
  compiled : option (chars -> bool);
  queue : list raw_message;
  received : Z;
  discarded : Z;
  errors : Z;
  basetime : option Z;
  first_row : Z;                          (* _page_first_row *)
  rows : nat                              (* _nrows - 3 *)
}.

(** Python's order of strings *)
Fixpoint text_ltb (a b : chars) : bool :=
  match a, b with
  | _, [] => false
  | [], _ :: _ => true
  | x :: a', y :: b' =>
      if N.ltb (N_of_ascii x) (N_of_ascii y) then true
      else if N.ltb (N_of_ascii y) (N_of_ascii x) then false else text_ltb a' b'
  end.
(** bisect.insort; the list is sorted, so that it is the position after all elements that are not greater *)
Fixpoint insort (x : chars) (l : list chars) : list chars :=
  match l with
  | [] => [x]
  | y :: r => if text_ltb x y then x :: l else y :: insort x r
  end.

Definition set_names st v := mkState v (formatted st) (raws st) (msigs st) (fsigs st) (with_error st) (playing st) (modified st) (show_filter st) (filter_text st) (cursor st) (old_filter st) (compiled st) (queue st) (received st) (discarded st) (errors st) (basetime st) (first_row st) (rows st).
Definition set_formatted st v := mkState (names st) v (raws st) (msigs st) (fsigs st) (with_error st) (playing st) (modified st) (show_filter st) (filter_text st) (cursor st) (old_filter st) (compiled st) (queue st) (received st) (discarded st) (errors st) (basetime st) (first_row st) (rows st).
Definition set_raws st v := mkState (names st) (formatted st) v (msigs st) (fsigs st) (with_error st) (playing st) (modified st) (show_filter st) (filter_text st) (cursor st) (old_filter st) (compiled st) (queue st) (received st) (discarded st) (errors st) (basetime st) (first_row st) (rows st).
Definition set_msigs st v := mkState (names st) (formatted st) (raws st) v (fsigs st) (with_error st) (playing st) (modified st) (show_filter st) (filter_text st) (cursor st) (old_filter st) (compiled st) (queue st) (received st) (discarded st) (errors st) (basetime st) (first_row st) (rows st).
Definition set_fsigs st v := mkState (names st) (formatted st) (raws st) (msigs st) v (with_error st) (playing st) (modified st) (show_filter st) (filter_text st) (cursor st) (old_filter st) (compiled st) (queue st) (received st) (discarded st) (errors st) (basetime st) (first_row st) (rows st).
Definition set_with_error st v := mkState (names st) (formatted st) (raws st) (msigs st) (fsigs st) v (playing st) (modified st) (show_filter st) (filter_text st) (cursor st) (old_filter st) (compiled st) (queue st) (received st) (discarded st) (errors st) (basetime st) (first_row st) (rows st).
Definition set_playing st v := mkState (names st) (formatted st) (raws st) (msigs st) (fsigs st) (with_error st) v (modified st) (show_filter st) (filter_text st) (cursor st) (old_filter st) (compiled st) (queue st) (received st) (discarded st) (errors st) (basetime st) (first_row st) (rows st).
Definition set_modified st v := mkState (names st) (formatted st) (raws st) (msigs st) (fsigs st) (with_error st) (playing st) v (show_filter st) (filter_text st) (cursor st) (old_filter st) (compiled st) (queue st) (received st) (discarded st) (errors st) (basetime st) (first_row st) (rows st).
Definition set_input st show text cur old := mkState (names st) (formatted st) (raws st) (msigs st) (fsigs st) (with_error st) (playing st) (modified st) show text cur old (compiled st) (queue st) (received st) (discarded st) (errors st) (basetime st) (first_row st) (rows st).
Definition set_compiled st v := mkState (names st) (formatted st) (raws st) (msigs st) (fsigs st) (with_error st) (playing st) (modified st) (show_filter st) (filter_text st) (cursor st) (old_filter st) v (queue st) (received st) (discarded st) (errors st) (basetime st) (first_row st) (rows st).
Definition set_queue st v := mkState (names st) (formatted st) (raws st) (msigs st) (fsigs st) (with_error st) (playing st) (modified st) (show_filter st) (filter_text st) (cursor st) (old_filter st) (compiled st) v (received st) (discarded st) (errors st) (basetime st) (first_row st) (rows st).
Definition set_counters st r d e := mkState (names st) (formatted st) (raws st) (msigs st) (fsigs st) (with_error st) (playing st) (modified st) (show_filter st) (filter_text st) (cursor st) (old_filter st) (compiled st) (queue st) r d e (basetime st) (first_row st) (rows st).
Definition set_basetime st v := mkState (names st) (formatted st) (raws st) (msigs st) (fsigs st) (with_error st) (playing st) (modified st) (show_filter st) (filter_text st) (cursor st) (old_filter st) (compiled st) (queue st) (received st) (discarded st) (errors st) v (first_row st) (rows st).
Definition set_first_row st v := mkState (names st) (formatted st) (raws st) (msigs st) (fsigs st) (with_error st) (playing st) (modified st) (show_filter st) (filter_text st) (cursor st) (old_filter st) (compiled st) (queue st) (received st) (discarded st) (errors st) (basetime st) v (rows st).
Definition set_rows st v := mkState (names st) (formatted st) (raws st) (msigs st) (fsigs st) (with_error st) (playing st) (modified st) (show_filter st) (filter_text st) (cursor st) (old_filter st) (compiled st) (queue st) (received st) (discarded st) (errors st) (basetime st) (first_row st) v.

(** MessageFormattingResult *)
Inductive verdict := Shown | Unknown | Undecoded.
(** What ends the monitor: QuitError, another exception, or a dictionary that changes its size while it is iterated over *)
Inductive stop := Quit | Raised (e : exn) | DictChanged.
(** What is on the screen: counters and filter, the lines, and the filter line *)
Record screen := mkScreen { sc_stats : Z * Z * Z * chars; sc_lines : list chars; sc_input : option (chars * ascii * chars) }.

Section Monitor.
  Context (compile : chars -> option (chars -> bool)) (float_text : spec_float -> chars) (stamp : Z -> chars)
          (unit_of : signal -> option chars) (raw_initial : signal -> option num) (explain : entry -> list Z -> chars)
          (single_line : bool) (db : database).

  Definition member (x : chars) (l : list chars) : bool := existsb (chars_eqb x) l.
  (** monitor.py:509-518 [_signals_matching_filter], for the signals of a message *)
  Definition matching (st : state) (name : chars) (sigs : list chars) : list chars :=
    match compiled st with
    | None => sigs
    | Some search => if search name then sigs else filter search sigs
    end.
  (** monitor.py:520-528 [_message_matches_filter] *)
  Definition matches_filter (st : state) (name : chars) : bool * state :=
    match tget (msigs st) name with
    | None => (true, st)
    | Some sigs =>
        match matching st name sigs with
        | [] => (false, st)
        | m => (true, set_fsigs st (tset (fsigs st) name m))
        end
    end.
  (** monitor.py:530-536 [insort_filtered] *)
  Definition insort_filtered (st : state) (name : chars) : state :=
    if member name (names st) then st
    else if member name (with_error st) then set_names st (insort name (names st))
    else let (b, st') := matches_filter st name in if b then set_names st' (insort name (names st')) else st'.
  (** monitor.py:449-465 [_update_formatted_message] *)
  Definition update_formatted (st : state) (name : chars) (lines : list chars) (is_error : bool) : state :=
    let old := match tget (formatted st) name with Some l => l | None => [] end in
    let lines' := if Nat.ltb (List.length lines) (List.length old) then lines ++ repeat [] (List.length old - List.length lines) else lines in
    let st := set_formatted st (tset (formatted st) name lines') in
    let st := set_with_error st (if is_error then (if member name (with_error st) then with_error st else name :: with_error st)
                                 else filter (fun x => negb (chars_eqb x name)) (with_error st)) in
    if member name (names st) then st else insort_filtered st name.
  (** monitor.py:429-439 [_format_lines] *)
  Definition format_lines (timestamp : Z) (name : chars) (items : list chars) (single : bool) : list chars :=
    let prefix := stamp timestamp ++ txt "  " ++ name ++ txt "(" in
    if single_line || single then [prefix ++ join (txt ", ") items ++ txt ")"]
    else [prefix] ++ map (fun p => txt "                  " ++ snd p ++ (if Nat.ltb (fst p + 1) (List.length items) then txt "," else []))
                         (combine (seq 0 (List.length items)) items)
         ++ [txt "              )"].
  (** monitor.py:467-474 [_update_message_error] *)
  Definition message_error (st : state) (timestamp : Z) (name : chars) (data : list Z) (error : chars) : state :=
    update_formatted st name (format_lines timestamp name [txt "undecoded, " ++ error ++ txt ": 0x" ++ bytes_hex [] data] true) true.
  (** monitor.py:442-447 [_filter_signals] *)
  Definition filter_signals (st : state) (name : chars) (signals : list (string * value)) : result (list (string * value) * state) :=
    let keys := map (fun p => txt (fst p)) signals in
    let st' := if tmem (msigs st) name then st
               else insort_filtered (set_fsigs (set_msigs st (tset (msigs st) name keys)) (tset (fsigs st) name keys)) name in
    match tget (fsigs st') name with
    | None => Err KeyError
    | Some l => Ok (filter (fun p => member (txt (fst p)) l) signals, st')
    end.

  (** message.py:1207-1222 [is_multiplexed] *)
  Definition is_multiplexed (m : message) : bool := match m_codec m with Codec _ _ muxes => match muxes with [] => false | _ => true end end.
  Definition num_text (n : num) : chars := value_text float_text (VNum n).
  (** __utils__.py:188-212 [format_multiplexed_name] *)
  Definition multiplexed_name (m : message) (d : list (string * value)) : chars :=
    join (txt " :: ") (txt (m_name m) ::
      flat_map (fun s => if s_is_mux s then
                           [txt (s_name s) ++ txt "=" ++
                            match sget d (s_name s) with
                            | Some v => value_text float_text v
                            | None => match raw_initial s with Some n => num_text n | None => txt "0" end
                            end]
                         else []) (m_signals m)).
  Definition display_name (m : message) (d : list (string * value)) : chars :=
    if is_multiplexed m then multiplexed_name m d else txt (m_name m).
  (** monitor.py:419-427 [_format_message] *)
  Definition format_message (st : state) (timestamp : Z) (m : message) (d : list (string * value)) (prefix : chars)
    : result (chars * list chars * state) :=
    let name := prefix ++ display_name m d in
    let* (d', st') := filter_signals st name d in
    Ok (name, format_lines timestamp name (format_signals float_text unit_of m d') false, st').

  (** monitor.py:381-417 [_try_update_container]; the payload of a contained message that cannot be decoded is bytes,
      which have no keys() *)
  Definition contained_name (h : Z + contained) : chars :=
    match h with inl id => txt "0x" ++ hex_text 1 id | inr x => txt (m_name (ct_msg x)) end.
  Fixpoint update_contained (st : state) (timestamp : Z) (box : chars) (l : list ((Z + contained) * payload)) : result state :=
    match l with
    | [] => Ok st
    | (inl id, p) :: r =>
        let name := box ++ txt " :: " ++ contained_name (inl id) in
        let data := match p with PBytes b => b | PDict _ => [] end in
        let text := match data with [] => txt "<empty>" | _ => txt "0x" ++ bytes_hex [] data end in
        update_contained (update_formatted st name (format_lines timestamp name [txt "undecoded: " ++ text] false) false) timestamp box r
    | (inr x, PDict d) :: r =>
        let* (nl, st') := format_message st timestamp (ct_msg x) d (box ++ txt " :: ") in
        update_contained (update_formatted st' (fst nl) (snd nl) false) timestamp box r
    | (inr x, PBytes b) :: _ => Err (if is_multiplexed (ct_msg x) then TypeError else AttributeError)
    end.
  Definition update_container (st : state) (e : entry) (timestamp : Z) (data : list Z) : result state :=
    let box := txt (m_name (e_msg e)) in
    let* decoded := decode_container (e_container e) data true true false true in
    let contents := map (fun p => contained_name (fst p)) decoded in
    let st := set_msigs st (tset (msigs st) box contents) in
    update_contained (update_formatted st box (format_lines timestamp box contents false) false) timestamp box decoded.

  (** monitor.py:344-379 [try_update_message] *)
  Definition try_update (st : state) (m : raw_message) : result (state * verdict) :=
    let base := match basetime st with Some b => b | None => rm_time m end in
    let st := set_basetime st (Some base) in
    let data := rm_data m in
    let timestamp := rm_time m - base in
    match get_message_by_frame_id db (rm_id m) (rm_ext m) with
    | Err KeyError => Ok (st, Unknown)
    | Err x => Err x
    | Ok e =>
        let name := txt (m_name (e_msg e)) in
        if is_container (e_container e) then
          match update_container st e timestamp data with
          | Ok st' => Ok (set_raws st' (tset (raws st') name m), Shown)
          | Err DecodeError => Ok (message_error st timestamp name data (explain e data), Undecoded)
          | Err x => Err x
          end
        else if zlen data <? m_length (e_msg e) then
          Ok (message_error st timestamp name data (decimal (m_length (e_msg e) - zlen data) ++ txt " bytes too short"), Undecoded)
        else match decode (e_msg e) data true true true true with
             | Ok d =>
                 let* (nl, st') := format_message st timestamp (e_msg e) d [] in
                 let st' := update_formatted st' (fst nl) (snd nl) false in
                 Ok (set_raws st' (tset (raws st') (fst nl) m), Shown)
             | Err DecodeError => Ok (message_error st timestamp name data (explain e data), Undecoded)
             | Err x => Err x
             end
    end.
  (** monitor.py:476-491 [update_messages] *)
  Fixpoint process (st : state) (l : list raw_message) : result state :=
    match l with
    | [] => Ok st
    | m :: r =>
        let* (st', v) := try_update st m in
        process (set_counters st' (received st' + 1) (discarded st' + match v with Unknown => 1 | _ => 0 end) (errors st' + match v with Undecoded => 1 | _ => 0 end)) r
    end.
  (** monitor.py:493-507 [update]; [resized] is the new number of usable rows *)
  Definition update (st : state) (resized : option nat) : result (state * bool) :=
    let* (st, m1) := (if playing st then
                        let* st' := process (set_queue st []) (queue st) in Ok (st', match queue st with [] => false | _ => true end)
                      else Ok (st, false)) in
    let m2 := modified st in
    let st := if m2 then set_modified st false else st in
    match resized with
    | Some r => Ok (set_rows st r, true)
    | None => Ok (st, m1 || m2)
    end.

  (** monitor.py:92-138 [redraw], 140-184 [draw_menu] *)
  Fixpoint gather_lines (st : state) (l : list chars) : result (list chars) :=
    match l with
    | [] => Ok []
    | n :: r => match tget (formatted st) n with
                | None => Err KeyError
                | Some b => let* t := gather_lines st r in Ok (b ++ t)
                end
    end.
  Definition redraw (st : state) : result (state * screen) :=
    let* lines := gather_lines st (names st) in
    let n := Z.of_nat (rows st) in
    let st := if zlen lines <? first_row st + n then set_first_row st (Z.max 0 (zlen lines - n)) else st in
    let input := if show_filter st
                 then Some (firstn (cursor st) (filter_text st),
                            nth (cursor st) (filter_text st) " "%char, skipn (cursor st + 1) (filter_text st))
                 else None in
    Ok (st, mkScreen (received st, discarded st, errors st, filter_text st)
                     (slice (first_row st) (first_row st + n) lines) input).

  (** monitor.py:248-280 [line_down], [line_up], [page_up], [page_down] *)
  Definition move (st : state) (k : keypress) : state :=
    let n := Z.of_nat (rows st) in
    let f := first_row st in
    set_modified (set_first_row st match k with
                                   | KDown => f + 1
                                   | KUp => if 0 <? f then f - 1 else 0
                                   | KPageUp => if n <? f then f - n else 0
                                   | _ => f + n
                                   end) true.
  (** monitor.py:214-246 [process_user_input_menu] *)
  Definition menu_key (st : state) (k : keypress) : state + stop :=
    match k with
    | Char "q" => inr Quit
    | Char "p" => inl (set_playing st (negb (playing st)))
    | Char "r" =>
        let st := set_playing (set_formatted (set_names st []) []) true in
        let st := set_basetime (set_counters st 0 0 (errors st)) None in
        let st := set_compiled (set_input st (show_filter st) [] (cursor st) (old_filter st)) None in
        inl (set_queue (set_modified st true) [])
    | Char "f" | Char "/" => inl (set_modified (set_input st true (filter_text st) (List.length (filter_text st)) (Some (filter_text st))) true)
    | KUp | KDown | KPageUp | KPageDown => inl (move st k)
    | _ => inl st
    end.
  (** monitor.py:288-331 [process_user_input_filter], the changes of the filter *)
  Definition edit_filter (st : state) (k : keypress) : result state :=
    let f := filter_text st in
    let c := cursor st in
    match k with
    | Char "010" => Ok (set_input st false f c (old_filter st))
    | Char "027" => match old_filter st with
                    | Some o => Ok (set_input st false o c None)
                    | None => Err AttributeError
                    end
    | KBackspace | Char "008" =>
        Ok (if Nat.ltb 0 c then set_input st true (firstn (c - 1) f ++ skipn c f) (c - 1) (old_filter st) else st)
    | KDelete => Ok (if Nat.ltb c (List.length f) then set_input st true (firstn c f ++ skipn (c + 1) f) c (old_filter st) else st)
    | KLeft => Ok (if Nat.ltb 0 c then set_input st true f (c - 1) (old_filter st) else st)
    | KRight => Ok (if Nat.ltb c (List.length f) then set_input st true f (c + 1) (old_filter st) else st)
    | KUp | KDown | KPageUp | KPageDown => Ok (move st k)
    | Char x => Ok (set_input st true (firstn c f ++ x :: skipn c f) (c + 1) (old_filter st))
    | KOther => Ok st
    end.
  (** monitor.py:333-342: all messages are formatted again *)
  Fixpoint reformat (st : state) (l : list (chars * raw_message)) : state + stop :=
    match l with
    | [] => inl st
    | (_, m) :: r =>
        match try_update st m with
        | Err x => inr (Raised x)
        | Ok (st', _) => if Nat.eqb (List.length (raws st')) (List.length (raws st)) then reformat st' r else inr DictChanged
        end
    end.
  Definition filter_key (st : state) (k : keypress) : state + stop :=
    match edit_filter st k with
    | Err x => inr (Raised x)
    | Ok st =>
        let st := set_compiled st (compile (filter_text st)) in
        let st := set_formatted (set_msigs (set_names st []) []) [] in
        match reformat st (raws st) with
        | inl st => inl (set_modified st true)
        | inr x => inr x
        end
    end.
  (** monitor.py:201-212 [process_user_input] *)
  Fixpoint keys (st : state) (l : list keypress) : state + stop :=
    match l with
    | [] => inl st
    | k :: r => match (if show_filter st then filter_key st k else menu_key st k) with inl st' => keys st' r | inr x => inr x end
    end.

  (** Events: a frame is received (monitor.py:538-539), or a tick (84-90) happens, with the keys that were pressed *)
  Inductive event := Frame (m : raw_message) | Tick (resized : option nat) (pressed : list keypress).
  Definition step (st : state) (e : event) : (state * option screen) + stop :=
    match e with
    | Frame m => inl (set_queue st (queue st ++ [m]), None)
    | Tick r l =>
        match update st r with
        | Err x => inr (Raised x)
        | Ok (st, draw) =>
            match (if draw then let* (st, s) := redraw st in Ok (st, Some s) else Ok (st, None)) with
            | Err x => inr (Raised x)
            | Ok (st, s) => match keys st l with inl st => inl (st, s) | inr x => inr x end
            end
        end
    end.
  (** The state after the events, and the screens that were drawn *)
  Fixpoint run (st : state) (l : list event) : (state * list screen) + stop :=
    match l with
    | [] => inl (st, [])
    | e :: r =>
        match step st e with
        | inr x => inr x
        | inl (st, s) =>
            match run st r with
            | inr x => inr x
            | inl (st, ss) => inl (st, match s with Some s => s :: ss | None => ss end)
            end
        end
    end.
  (** monitor.py:33-65 [__init__] *)
  Definition start (filter_regex : chars) (rows : nat) : state :=
    mkState [] [] [] [] [] [] true true false filter_regex 0 None (compile filter_regex) [] 0 0 0 None 0 rows.
End Monitor.
