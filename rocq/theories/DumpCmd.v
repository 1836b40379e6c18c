(** DumpCmd: the dump command (src/cantools/subparsers/dump/__init__.py) after the file has been loaded, without comments.  An
    element of the output stands for one line.  The printed lines are lost when an exception is raised.

    [di_core] has the name, the identifier, the length and the signals of a message, [di_j1939] says whether the protocol of the
    message is J1939, [dm_contained] is None for messages that are no containers.  Contained messages contain none. *)
From Coq Require Import Ascii.
From Verif Require Import Base PyNum Conversion Signal Message CSource CNames Regex DbcNames DbcToken Logreader DecodeCmd ListCmd J1939.
From Verif Require Draw TreeDraw Did.
Local Open Scope string_scope.
Local Open Scope Z_scope.
Local Open Scope list_scope.

Record dinfo := mkDInfo { di_core : message; di_senders : list chars; di_cycle : option Z; di_header : option Z; di_j1939 : bool }.
Record dmessage := mkDMsg { dm_info : dinfo; dm_contained : option (list dinfo) }.
Definition di_name (i : dinfo) : chars := txt (m_name (di_core i)).
Definition dm_name (m : dmessage) : chars := di_name (dm_info m).

(** str.splitlines, for ASCII texts: a carriage return and the line feed after it end one line *)
Definition line_end (c : ascii) : bool := let n := nat_of_ascii c in ((10 <=? n)%nat && (n <=? 13)%nat) || ((28 <=? n)%nat && (n <=? 30)%nat).
Fixpoint splitlines_aux (line t : chars) : list chars :=
  match t with
  | [] => match line with [] => [] | _ => [line] end
  | c :: r =>
      if line_end c then
        line :: splitlines_aux [] match r with d :: r' => if Ascii.eqb c "013" && Ascii.eqb d "010" then r' else r | [] => r end
      else splitlines_aux (line ++ [c]) r
  end.
Definition splitlines (t : chars) : list chars := splitlines_aux [] t.
(** print('\n'.join([('    ' + line).rstrip() for line in t.splitlines()])) *)
Definition indented (t : chars) : list chars :=
  match map (fun l => Draw.rstrip (txt "    " ++ l)) (splitlines t) with [] => [[]] | ls => ls end.

(** database/utils.py:49-56 *)
Definition format_and (l : list chars) : result chars :=
  match l with
  | [] => Err IndexError
  | [a] => Ok a
  | _ => Ok (comma_join (removelast l) ++ txt " and " ++ last l [])
  end.

(** __init__.py:14-35 *)
Definition j1939_lines (id : Z) : result (list chars) :=
  let* u := frame_id_unpack id in
  let one := fi_pdu_format u <? 240 in
  let specific := if one then 0 else fi_pdu_specific u in
  let* g := pgn_pack (mkPgn (fi_reserved u) (fi_data_page u) (fi_pdu_format u) specific) in
  Ok [txt "      Priority:       " ++ decimal (fi_priority u);
      txt "      PGN:            0x" ++ hex_text 5 g;
      txt "      Source:         0x" ++ hex_text 2 (fi_source u);
      txt "      Destination:    " ++ (if one then txt "0x" ++ hex_text 2 (fi_pdu_specific u) else txt "All");
      txt "      Format:         " ++ (if one then txt "PDU 1" else txt "PDU 2")].

Definition ruler : chars := txt "  ------------------------------------------------------------------------".
(** 45-46: a message without senders is given the sender "-", and keeps it *)
Definition with_sender (i : dinfo) : dinfo :=
  match di_senders i with [] => mkDInfo (di_core i) [txt "-"] (di_cycle i) (di_header i) (di_j1939 i) | _ => i end.
(** 38-66 *)
Definition front_lines (prefix : chars) (container : bool) (i : dinfo) : result (list chars) :=
  let m := di_core i in
  let* j := if di_j1939 i then j1939_lines (m_frame_id m) else Ok [] in
  let* senders := format_and (di_senders (with_sender i)) in
  Ok ([[]; txt "  Name:           " ++ prefix ++ di_name i] ++
      (match prefix with [] => [txt "  Id:             0x" ++ hex_text 1 (m_frame_id m)] | _ => [] end) ++
      (match prefix, di_header i with _ :: _, Some h => [txt "  Header id:      0x" ++ hex_text 6 h] | _, _ => [] end) ++
      j ++
      [(if container then txt "  Maximum length: " else txt "  Length:         ") ++ decimal (m_length m) ++ txt " bytes";
       txt "  Cycle time:     " ++ (match di_cycle i with Some c => decimal c | None => txt "-" end) ++ txt " ms";
       txt "  Senders:        " ++ senders]).
(** 73-95 *)
Definition body_lines (width : Z) (i : dinfo) : result (list chars) :=
  let m := di_core i in
  let* tree := TreeDraw.signal_tree_string m width in
  Ok ([txt "  Layout:"; []] ++ indented (Draw.layout_string m true) ++ [[]; txt "  Signal tree:"; []] ++ indented tree ++ [[]] ++
      match TreeDraw.signal_choices_string m with [] => [] | t => txt "  Signal choices:" :: indented t ++ [[]] end).
(** 38-97 for a message that is no container *)
Definition dump_simple (width : Z) (prefix : chars) (i : dinfo) : result (list chars) :=
  let* f := front_lines prefix false i in
  let* b := body_lines width i in
  Ok (f ++ b ++ [ruler]).
(** 38-105 *)
Definition dump_message (width : Z) (m : dmessage) : result (list chars) :=
  match dm_contained m with
  | None => dump_simple width [] (dm_info m)
  | Some cs =>
      let* f := front_lines [] true (dm_info m) in
      let* children := mapM (dump_simple width (dm_name m ++ txt " :: ")) cs in
      Ok (f ++ [txt "  Possibly contained children:"; []] ++ map (fun c => txt "      " ++ dm_name m ++ txt " :: " ++ di_name c) cs ++ [[]; ruler] ++ List.concat children)
  end.
(** What is left of a message after it has been dumped *)
Definition after_dump (m : dmessage) : dmessage := mkDMsg (with_sender (dm_info m)) (option_map (map with_sender) (dm_contained m)).
(** 108-122; [width] is that of the terminal, 80 if there is none *)
Definition dump_messages (width : Z) (l : list dmessage) : result (list chars * list dmessage) :=
  let* b := mapM (dump_message width) l in
  Ok ([txt "================================= Messages ================================="; []; ruler] ++ List.concat b, map after_dump l).

(** database.py:419-440: the dictionary of messages by name *)
Definition dumped_by_name (db : list dmessage) : list (chars * dmessage) := fold_left (fun d m => dset chars_eqb d (dm_name m) m) db [].
(** 147-161 for a CAN database *)
Definition do_dump (width : Z) (name : option chars) (db : list dmessage) : result (list chars * list dmessage) :=
  match name with
  | None => dump_messages width db
  | Some n => match dget chars_eqb (dumped_by_name db) n with Some m => dump_messages width [m] | None => Err KeyError end
  end.

(** 125-144: data identifiers of a diagnostics database with their names *)
Definition data_lines (d : signal) : list chars :=
  [txt "    Name:      " ++ txt (s_name d); txt "    Start bit: " ++ decimal (s_start d); txt "    Length:    " ++ decimal (s_length d); []].
Definition did_lines (d : chars * Did.did) : list chars :=
  [[]; txt "  Name:       " ++ fst d; txt "  Length:     " ++ decimal (Did.did_length (snd d)) ++ txt " bytes"; txt "  Layout:"; []] ++
  flat_map data_lines (Did.did_datas (snd d)) ++ [[]; ruler].
Definition dump_dids (l : list (chars * Did.did)) : list chars :=
  [txt "=================================== Dids ==================================="; []; ruler] ++ flat_map did_lines l.
