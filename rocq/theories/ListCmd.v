(** ListCmd: the list command (src/cantools/subparsers/list.py) after the file has been loaded.  A line stands for one call of
    print.

    Messages are those of [ArxmlLoad], whose records have all that is printed; [lm_autosar] says whether a message has a part that
    is specific to AUTOSAR, as only those of ARXML files do, and [lm_contained] is None for messages that are no containers.
    Here [am_signals] has the signals in the order of message.signals.  Contained messages contain none.  [show] is
    format(n, '') for a number; the command always uses the empty format specifier. *)
From Coq Require Import Ascii Floats.SpecFloat.
From Verif Require Import Base PyNum Conversion Signal Message CSource CNames Regex DbcNames DbcToken Logreader DecodeCmd Xml Arxml ArxmlLoad.
From Verif Require TreeDraw.
Local Open Scope string_scope.
Local Open Scope Z_scope.
Local Open Scope list_scope.

Record lmessage := mkLMsg { lm_info : ainfo; lm_autosar : bool; lm_contained : option (list ainfo) }.
Definition lm_core (m : lmessage) : message := am_core (lm_info m).
Definition lm_name (m : lmessage) : chars := txt (m_name (lm_core m)).

(** ", ".join(l) *)
Fixpoint comma_join (l : list chars) : chars := match l with [] => [] | [a] => a | a :: r => a ++ txt ", " ++ comma_join r end.
Definition sorted_texts (l : list chars) : list chars := sorted_py text_leb l.
Definition py_bool (b : bool) : chars := if b then txt "True" else txt "False".
Definition or_none (o : option chars) : chars := match o with Some t => t | None => txt "None" end.
Definition int_or_none (o : option Z) : chars := match o with Some z => decimal z | None => txt "None" end.
Definition hex_and_decimal (z : Z) : chars := txt "0x" ++ hex_text 1 z ++ txt " (" ++ decimal z ++ txt ")".
Definition opt_line {A} (o : option A) (f : A -> chars) : list chars := match o with Some x => [f x] | None => [] end.
(** for lang in comments; None or an empty dictionary prints nothing *)
Definition comment_lines (indent : chars) (c : option comments_t) : list chars :=
  match c with None => [] | Some l => map (fun p => indent ++ txt "Comment[" ++ fst p ++ txt "]: " ++ snd p) l end.

(** 1 + 1e-10 and 1 - 1e-10 *)
Definition above_one : num := NFlt (S754_finite false 4503599627820856 (-52)).
Definition below_one : num := NFlt (S754_finite false 9007199253840272 (-53)).

Section List.
  Context (show : num -> chars).
  (** list.py:12-29 *)
  Definition format_val (v : value) (unit : chars) : chars :=
    match v with
    | VNum n => show n ++ match unit with [] => [] | u => txt " " ++ u end
    | VStr s => txt s
    | VNamed _ s => txt s
    end.

  (** 119-126 *)
  Definition internal_type (sigs : list asignal) (s : asignal) : chars :=
    let g := a_sig s in
    if conv_is_float (s_conv g) then txt "Float"
    else if s_is_mux g && existsb (fun x => match s_mux_sig (a_sig x) with Some n => String.eqb n (s_name g) | None => false end) sigs then txt "Multiplex Selector"
    else txt "Integer".
  (** 135-148 *)
  Definition selector_value (sel : signal) (x : Z) : chars :=
    match conv_choices (s_conv sel) with
    | Some l => match zget l x with Some c => TreeDraw.choice_text c | None => decimal x end
    | None => decimal x
    end.
  Definition selector_lines (indent : chars) (sigs : list asignal) (g : signal) : result (list chars) :=
    match s_mux_sig g with
    | None => Ok []
    | Some n =>
        let* sel := get_signal (map a_sig sigs) n in
        let values := match s_mux_ids g with Some ids => map (selector_value sel) ids | None => [] end in
        Ok [indent ++ txt "      Selector signal: " ++ txt n; indent ++ txt "      Selector values: " ++ comma_join values]
    end.
  (** 168-177 *)
  Definition scaling_lines (indent unit : chars) (c : conversion) : list chars :=
    let has_offset := negb (py_eq (conv_offset c) (NInt 0)) in
    let has_scale := py_gt (conv_scale c) above_one || py_lt (conv_scale c) below_one in
    if has_offset || has_scale then
      [indent ++ txt "      Offset: " ++ format_val (VNum (conv_offset c)) unit; indent ++ txt "      Scaling factor: " ++ format_val (VNum (conv_scale c)) unit]
    else [].
  (** 179-185 *)
  Definition named_lines (indent : chars) (o : option (list named)) : list chars :=
    match o with
    | None | Some [] => []
    | Some l => (indent ++ txt "      Named values:") ::
        flat_map (fun c => (indent ++ txt "        " ++ show (nv_value c) ++ txt ": " ++ nv_name c) :: comment_lines (indent ++ txt "          ") (nv_comments c)) l
    end.
  (** 128-185, one signal *)
  Definition signal_lines (indent : chars) (sigs : list asignal) (s : asignal) : result (list chars) :=
    let g := a_sig s in
    let unit := match a_unit s with Some u => u | None => [] end in
    let* sel := selector_lines indent sigs g in
    Ok ((indent ++ txt "    " ++ txt (s_name g) ++ txt ":") ::
        comment_lines (indent ++ txt "      ") (a_comments s) ++
        (match a_receivers s with [] => [] | l => [indent ++ txt "      Receiving ECUs: " ++ comma_join (sorted_texts l)] end) ++
        [indent ++ txt "      Internal type: " ++ internal_type sigs s] ++
        sel ++
        [indent ++ txt "      Start bit: " ++ decimal (s_start g);
         indent ++ txt "      Length: " ++ decimal (s_length g) ++ txt " bits";
         indent ++ txt "      Byte order: " ++ (if s_big g then txt "big_endian" else txt "little_endian")] ++
        (match unit with [] => [] | u => [indent ++ txt "      Unit: " ++ u] end) ++
        opt_line (a_initial s) (fun v => indent ++ txt "      Initial value: " ++ format_val v unit) ++
        opt_line (a_invalid s) (fun v => indent ++ txt "      Invalid value: " ++ format_val v unit) ++
        [indent ++ txt "      Is signed: " ++ py_bool (s_signed g)] ++
        opt_line (s_min g) (fun n => indent ++ txt "      Minimum: " ++ format_val (VNum n) unit) ++
        opt_line (s_max g) (fun n => indent ++ txt "      Maximum: " ++ format_val (VNum n) unit) ++
        scaling_lines indent unit (s_conv g) ++
        named_lines indent (a_choices s)).

  (** 69-89 *)
  Definition specific_lines (indent : chars) (sp : specifics) : list chars :=
    [indent ++ txt "  Is network management frame: " ++ py_bool (sp_nm sp)] ++
    (match sp_e2e sp with
     | None => []
     | Some e => [indent ++ txt "  End-to-end properties:"; indent ++ txt "    Category: " ++ or_none (e_category e);
                  indent ++ txt "    Data IDs: [" ++ comma_join (map decimal (e_ids e)) ++ txt "]"; indent ++ txt "    Protected size: " ++ decimal (e_length e) ++ txt " bytes"]
     end) ++
    [indent ++ txt "  Is secured: " ++ py_bool (match sp_secoc sp with Some _ => true | None => false end)] ++
    (match sp_secoc sp with
     | None => []
     | Some c => [indent ++ txt "  Security properties:"; indent ++ txt "    Authentication algorithm: " ++ or_none (so_auth c);
                  indent ++ txt "    Freshness algorithm: " ++ or_none (so_fresh c); indent ++ txt "    Data ID: " ++ int_or_none (so_data_id c);
                  indent ++ txt "    Authentication transmit bits: " ++ int_or_none (so_auth_tx c);
                  indent ++ txt "    Freshness counter size: " ++ int_or_none (so_fresh_len c) ++ txt " bits";
                  indent ++ txt "    Freshness counter transmit size: " ++ int_or_none (so_fresh_tx c) ++ txt " bits";
                  indent ++ txt "    Secured size: " ++ decimal (so_payload c) ++ txt " bytes"]
     end).
  (** 91-97 *)
  Definition tree_part (indent : chars) (i : ainfo) : result (list chars) :=
    match am_signals i with
    | [] => Ok []
    | _ =>
        let* st := TreeDraw.signal_tree_string (am_core i) 1000000 in
        Ok ((indent ++ txt "  Signal tree:") :: [] :: map (fun s => indent ++ txt "    " ++ s) (split_on TreeDraw.newline st) ++ [[]])
    end.
  (** 116-185 *)
  Definition signals_part (indent : chars) (i : ainfo) : result (list chars) :=
    let* l := mapM (signal_lines indent (am_signals i)) (am_signals i) in
    Ok (match am_signals i with [] => [] | _ => [indent ++ txt "  Signal details:"] end ++ List.concat l).
  (** 42-89 *)
  Definition head_part (indent : chars) (specifics autosar container : bool) (i : ainfo) : list chars :=
    let m := am_core i in
    [indent ++ txt (m_name m) ++ txt ":"] ++
    comment_lines (indent ++ txt "  ") (am_comments i) ++
    (match am_bus i with Some (c :: b) => [indent ++ txt "  Bus: " ++ c :: b] | _ => [] end) ++
    (match am_senders i with [] => [] | l => [indent ++ txt "  Sending ECUs: " ++ comma_join (sorted_texts l)] end) ++
    (match am_header i with
     | None => [indent ++ txt "  Frame ID: " ++ hex_and_decimal (m_frame_id m);
                indent ++ (if container then txt "  Maximum Size: " else txt "  Size: ") ++ decimal (m_length m) ++ txt " bytes";
                indent ++ txt "  Is extended frame: " ++ py_bool (m_extended m); indent ++ txt "  Is CAN-FD frame: " ++ py_bool (am_fd i)]
     | Some h => [indent ++ txt "  Header ID: " ++ hex_and_decimal h; indent ++ txt "  Size: " ++ decimal (m_length m) ++ txt " bytes"]
     end) ++
    opt_line (am_cycle i) (fun c => indent ++ txt "  Cycle time: " ++ format_val (VNum (NInt c)) (txt "ms")) ++
    (if specifics && autosar then specific_lines indent (am_spec i) else []).
  (** 32-185 for a message that is no container *)
  Definition print_simple (indent : chars) (specifics autosar : bool) (i : ainfo) : result (list chars) :=
    let* t := tree_part indent i in
    let* s := signals_part indent i in
    Ok (head_part indent specifics autosar false i ++ t ++ s).
  (** 99-114: details of contained messages are indented by four blanks in any case *)
  Definition contained_part (indent : chars) (specifics autosar : bool) (o : option (list ainfo)) : result (list chars) :=
    match o with
    | None => Ok []
    | Some cs =>
        let* hs := mapM (fun c => match am_header c with Some h => Ok (indent ++ txt "    " ++ txt (m_name (am_core c)) ++ txt " (0x" ++ hex_text 1 h ++ txt ")") | None => Err TypeError end) cs in
        let* ds := mapM (print_simple (txt "    ") specifics autosar) cs in
        Ok ((indent ++ txt "  Potentially contained messages:") :: [] :: hs ++ [[]] ++ (indent ++ txt "  Potentially contained message details:") :: List.concat ds)
    end.
  (** 32-185 *)
  Definition print_message (specifics : bool) (m : lmessage) : result (list chars) :=
    let* t := tree_part [] (lm_info m) in
    let* c := contained_part [] specifics (lm_autosar m) (lm_contained m) in
    let* s := signals_part [] (lm_info m) in
    Ok (head_part [] specifics (lm_autosar m) (match lm_contained m with Some _ => true | None => false end) (lm_info m) ++ t ++ c ++ s).

  (** ** Messages: 253-303 *)
  Record list_args := mkArgs { la_items : list chars; la_all : bool; la_no_extended : bool; la_no_normal : bool; la_skip_specifics : bool }.
  (** database.py:419-440: the dictionary of messages by name *)
  Definition by_name (db : list lmessage) : list (chars * lmessage) := fold_left (fun d m => dset chars_eqb d (lm_name m) m) db [].
  (** 265-270 and 278-284 *)
  Definition wanted (a : list_args) (m : lmessage) : bool :=
    negb (m_extended (lm_core m) && la_no_extended a) && negb (negb (m_extended (lm_core m)) && la_no_normal a).
  Definition wanted_names (a : list_args) (db : list lmessage) : list chars := map lm_name (filter (wanted a) db).
  Definition list_item (a : list_args) (db : list lmessage) (name : chars) : result (list chars) :=
    match dget chars_eqb (by_name db) name with
    | Some m => print_message (negb (la_skip_specifics a)) m
    | None => Ok [txt "No message named """ ++ name ++ txt """ has been found in input file."]
    end.
  Definition list_messages (a : list_args) (db : list lmessage) : result (list chars) :=
    let names := if la_all a then sorted_texts (la_items a ++ wanted_names a db) else la_items a in
    match names with
    | [] => Ok (sorted_texts (wanted_names a db))
    | _ => let* l := mapM (list_item a db) names in Ok (List.concat l)
    end.

  (** ** Buses and nodes: 187-208 and 233-251 *)
  Definition chosen (items : list chars) (name : chars) : bool := match items with [] => true | _ => chars_in name items end.
  Definition bus_lines (b : abus) : list chars :=
    (b_name b ++ txt ":") :: comment_lines (txt "  ") (b_comments b) ++ opt_line (b_rate b) (fun z => txt "  Baudrate: " ++ decimal z) ++
    match b_fd_rate b with Some z => [txt "  CAN-FD enabled: True"; txt "  FD Baudrate: " ++ decimal z] | None => [txt "  CAN-FD enabled: False"] end.
  Definition node_lines (n : anode) : list chars := (nd_name n ++ txt ":") :: comment_lines (txt "  ") (nd_comments n).
  Definition list_buses (items : list chars) (l : list abus) : list chars := flat_map bus_lines (filter (fun b => chosen items (b_name b)) l).
  Definition list_nodes (items : list chars) (l : list anode) : list chars := flat_map node_lines (filter (fun n => chosen items (nd_name n)) l).
End List.
