(** DbcDump: the database objects that a DBC file describes, and how they are written
    (database/can/formats/dbc.py:588-1208 and 2018-2285).
    The objects hold what [load_string] gives to their constructors and what [dump_string] reads from them.  Objects do
    not share parts, so the changes that dump makes to its deep copy are new values here.
    Floating point numbers are abstract: the theorems hold for every type of floats with str(), float() and int(). *)
From Coq Require Import Ascii.
From Verif Require Import Base CSource CNames Regex DecText DbcNames DbcToken DbcStmt.
Local Open Scope string_scope.
Local Open Scope Z_scope.
Local Open Scope list_scope.

Class Floats := {
  F : Type;
  f_text : F -> chars;               (* str(f) *)
  f_read : chars -> option F;        (* float(s), None for ValueError *)
  f_int : Z -> F;                    (* float(z) *)
  f_trunc : chars -> option Z;       (* int(Decimal(s)) for texts that int() does not read *)
  f_is_int : F -> Z -> bool;         (* f == z *)
  f_same : F -> F -> bool            (* f == g *)
}.

Section Dbc.
Context {FL : Floats}.

(** ** Objects *)
Inductive num := DInt (z : Z) | DFloat (f : F).
Definition num_text (n : num) : chars := match n with DInt z => decimal z | DFloat f => f_text f end.
(** The value of an attribute (can/attribute.py) *)
Inductive aval := AInt (z : Z) | AFloat (f : F) | AStr (s : chars).
Definition aval_text (v : aval) : chars := match v with AInt z => decimal z | AFloat f => f_text f | AStr s => s end.
(** can/attribute_definition.py:12-34 *)
Record definition := Def {
  d_name : chars; d_default : option aval; d_kind : option string; d_type : chars; d_min : option num; d_max : option num;
  d_choices : list chars }.
Record attribute := Attr { a_value : aval; a_def : definition }.
Definition attrs := list (chars * attribute).
Record node := Node { n_name : chars; n_comment : option chars; n_attrs : attrs }.
Record dsignal := DSignal {
  s_name : chars; s_start : Z; s_length : Z; s_big : bool; s_signed : bool; s_initial : option num; s_scale : num; s_offset : num;
  s_float : bool; s_choices : option (list (Z * chars)); s_min : option num; s_max : option num; s_unit : option chars;
  s_comment : option chars; s_receivers : list chars; s_is_mux : bool; s_mux_ids : option (list Z); s_mux_signal : option chars;
  s_spn : option aval; s_attrs : attrs }.
Record group := Group { g_name : chars; g_repetitions : Z; g_signals : list chars }.
Record dmessage := DMessage {
  m_id : Z; m_extended : bool; m_name : chars; m_length : Z; m_senders : list chars; m_send_type : option chars;
  m_cycle_time : option aval; m_comment : option chars; m_signals : list dsignal; m_j1939 : bool; m_fd : bool;
  m_groups : option (list group); m_attrs : attrs }.
Record bus := Bus { b_name : chars; b_baudrate : option Z; b_comment : option chars }.
Record envvar := Envvar {
  e_name : chars; e_type : Z; e_min : num; e_max : num; e_unit : chars; e_initial : num; e_id : Z; e_access : chars; e_node : chars;
  e_comment : option chars; e_attrs : attrs }.
Definition definitions := list (chars * definition).
Definition sig_relations := list (Z * list (chars * list (chars * attrs))).
Definition msg_relations := list (Z * list (chars * attrs)).
Record database := Db {
  db_version : option chars; db_nodes : list node; db_buses : list bus; db_messages : list dmessage; db_attrs : attrs;
  db_definitions : definitions; db_envvars : list (chars * envvar); db_tables : list (chars * list (Z * chars));
  db_sig_rels : sig_relations; db_msg_rels : msg_relations; db_rel_definitions : definitions }.

Definition cget {V} (d : list (chars * V)) (k : chars) : option V := dget chars_eqb d k.
Definition cset {V} (d : list (chars * V)) (k : chars) (v : V) : list (chars * V) := dset chars_eqb d k v.
Definition cdel {V} (d : list (chars * V)) (k : chars) : list (chars * V) := ddel chars_eqb d k.
Definition cmem {V} (d : list (chars * V)) (k : chars) : bool := dmem chars_eqb d k.
Definition type_is (d : definition) (t : string) : bool := chars_eqb (d_type d) (txt t).

(** ** Definitions that dump adds (dbc.py:238-308) *)
Definition name_definition (n k : string) : definition := Def (txt n) (Some (AStr [])) (Some k) (txt "STRING") None None [].
Definition long_envvar := name_definition "SystemEnvVarLongSymbol" "EV_".
Definition long_node := name_definition "SystemNodeLongSymbol" "BU_".
Definition long_message := name_definition "SystemMessageLongSymbol" "BO_".
Definition long_signal := name_definition "SystemSignalLongSymbol" "SG_".
Definition def_baudrate := Def (txt "Baudrate") (Some (AInt 125000)) None (txt "INT") (Some (DInt 0)) (Some (DInt 10485760)) [].
Definition frame_formats : list chars :=
  map txt ["StandardCAN"; "ExtendedCAN"; "reserved"; "J1939PG"; "reserved"; "reserved"; "reserved"; "reserved"; "reserved"; "reserved";
           "reserved"; "reserved"; "reserved"; "reserved"; "StandardCAN_FD"; "ExtendedCAN_FD"].
Definition def_frame_format := Def (txt "VFrameFormat") (Some (AStr (txt "StandardCAN"))) (Some "BO_") (txt "ENUM") None None frame_formats.
Definition def_brs := Def (txt "CANFD_BRS") (Some (AStr (txt "1"))) (Some "BO_") (txt "ENUM") None None [txt "0"; txt "1"].
Definition def_cycle_time := Def (txt "GenMsgCycleTime") (Some (AInt 0)) (Some "BO_") (txt "INT") (Some (DInt 0)) (Some (DInt 65535)) [].
Definition def_start_value := Def (txt "GenSigStartValue") (Some (AFloat (f_int 0))) (Some "SG_") (txt "FLOAT") (Some (DInt 0)) (Some (DInt 100000000000)) [].

Definition frame (m : dmessage) : Z := get_dbc_frame_id (m_id m) (m_extended m).
Definition frame_text (m : dmessage) : chars := decimal (frame m).

(** utils.py:59-63, 442-447: [sorted] is stable *)
Definition start_bit (s : dsignal) : Z := if s_big s then 8 * (s_start s / 8) + (7 - s_start s mod 8) else s_start s.
Definition by_start (a b : dsignal) : bool := start_bit a <=? start_bit b.
Definition sort_signals (l : list dsignal) : list dsignal := sorted_py by_start l.
Definition dump_order (l : list dsignal) : list dsignal := rev (sort_signals l).

(** ** Names (dbc.py:2018-2222) *)
Definition rename_in (old new : chars) (l : list chars) : list chars := map (fun x => if chars_eqb x old then new else x) l.
Definition with_receivers (s : dsignal) (r : list chars) : dsignal :=
  DSignal (s_name s) (s_start s) (s_length s) (s_big s) (s_signed s) (s_initial s) (s_scale s) (s_offset s) (s_float s) (s_choices s) (s_min s)
    (s_max s) (s_unit s) (s_comment s) r (s_is_mux s) (s_mux_ids s) (s_mux_signal s) (s_spn s) (s_attrs s).
Definition with_name_attrs (s : dsignal) (n : chars) (a : attrs) : dsignal :=
  DSignal n (s_start s) (s_length s) (s_big s) (s_signed s) (s_initial s) (s_scale s) (s_offset s) (s_float s) (s_choices s) (s_min s)
    (s_max s) (s_unit s) (s_comment s) (s_receivers s) (s_is_mux s) (s_mux_ids s) (s_mux_signal s) (s_spn s) a.
Definition with_signals (m : dmessage) (senders : list chars) (l : list dsignal) (g : option (list group)) : dmessage :=
  DMessage (m_id m) (m_extended m) (m_name m) (m_length m) senders (m_send_type m) (m_cycle_time m) (m_comment m) l (m_j1939 m) (m_fd m) g (m_attrs m).
Definition with_message_name (m : dmessage) (n : chars) (a : attrs) : dmessage :=
  DMessage (m_id m) (m_extended m) n (m_length m) (m_senders m) (m_send_type m) (m_cycle_time m) (m_comment m) (m_signals m) (m_j1939 m) (m_fd m)
    (m_groups m) a.
(** The senders and receivers that name a node *)
Definition rename_node_in (old new : chars) (m : dmessage) : dmessage :=
  with_signals m (rename_in old new (m_senders m)) (map (fun s => with_receivers s (rename_in old new (s_receivers s))) (m_signals m)) (m_groups m).
(** dbc.py:2058-2071 *)
Fixpoint special_nodes (l : list node) (ms : list dmessage) : result (list node * list dmessage) :=
  match l with
  | [] => Ok ([], ms)
  | n :: r =>
      let* new := get_dbc_name (n_name n) in
      let* p := special_nodes r (map (rename_node_in (n_name n) new) ms) in
      Ok (Node new (n_comment n) (n_attrs n) :: fst p, snd p)
  end.
Definition special_group (g : group) : result group :=
  let* n := get_dbc_name (g_name g) in
  let* l := mapM get_dbc_name (g_signals g) in
  Ok (Group n (g_repetitions g) l).
(** dbc.py:2073-2084 *)
Definition special_message (m : dmessage) : result dmessage :=
  let* n := get_dbc_name (m_name m) in
  let* l := mapM (fun s => let* n := get_dbc_name (s_name s) in Ok (with_name_attrs s n (s_attrs s))) (m_signals m) in
  let* g := match m_groups m with None => Ok None | Some g => let* g := mapM special_group g in Ok (Some g) end in
  Ok (with_signals (with_message_name m n (m_attrs m)) (m_senders m) l g).
Definition with_parts (db : database) (nodes : list node) (ms : list dmessage) (defs : definitions) (ev : list (chars * envvar)) (sr : sig_relations) : database :=
  Db (db_version db) nodes (db_buses db) ms (db_attrs db) defs ev (db_tables db) sr (db_msg_rels db) (db_rel_definitions db).
Definition remove_special_chars (db : database) : result database :=
  let* p := special_nodes (db_nodes db) (db_messages db) in
  let* ms := mapM special_message (snd p) in
  Ok (with_parts db (fst p) ms (db_definitions db) (db_envvars db) (db_sig_rels db)).

(** dbc.py:2018-2026 *)
Definition ensure (defs : definitions) (d : definition) : definitions := if cmem defs (d_name d) then defs else cset defs (d_name d) d.
Definition ensured (defs : definitions) (d : definition) : definition := match cget defs (d_name d) with Some x => x | None => d end.
Definition converter (names : list chars) : result names_map :=
  match convert_names names with Some (l2s, _) => Ok l2s | None => Err KeyError end.
Definition short_of (c : names_map) (n : chars) : result chars := match nget c n with Some s => Ok s | None => Err KeyError end.
Definition set_long (a : attrs) (long : chars) (defs : definitions) (d : definition) : attrs := cset a (d_name d) (Attr (AStr long) (ensured defs d)).
(** dbc.py:2087-2114 *)
Fixpoint short_nodes (c : names_map) (shorten : bool) (l : list node) (ms : list dmessage) (defs : definitions) : result (list node * list dmessage * definitions) :=
  match l with
  | [] => Ok ([], ms, defs)
  | n :: r =>
      let* short := short_of c (n_name n) in
      let a := cdel (n_attrs n) (txt "SystemNodeLongSymbol") in
      if chars_eqb (n_name n) short || negb shorten then
        let* p := short_nodes c shorten r ms defs in
        Ok (Node (n_name n) (n_comment n) a :: fst (fst p), snd (fst p), snd p)
      else
        let* p := short_nodes c shorten r (map (rename_node_in (n_name n) short) ms) (ensure defs long_node) in
        Ok (Node short (n_comment n) (set_long a (n_name n) defs long_node) :: fst (fst p), snd (fst p), snd p)
  end.
(** dbc.py:2117-2135 *)
Fixpoint short_messages (c : names_map) (shorten : bool) (l : list dmessage) (defs : definitions) : result (list dmessage * definitions) :=
  match l with
  | [] => Ok ([], defs)
  | m :: r =>
      let* short := short_of c (m_name m) in
      let a := cdel (m_attrs m) (txt "SystemMessageLongSymbol") in
      if chars_eqb (m_name m) short || negb shorten then
        let* p := short_messages c shorten r defs in
        Ok (with_message_name m (m_name m) a :: fst p, snd p)
      else
        let* p := short_messages c shorten r (ensure defs long_message) in
        Ok (with_message_name m short (set_long a (m_name m) defs long_message) :: fst p, snd p)
  end.
Fixpoint short_signals (c : names_map) (shorten : bool) (l : list dsignal) (defs : definitions) : result (list dsignal * definitions) :=
  match l with
  | [] => Ok ([], defs)
  | s :: r =>
      let* short := short_of c (s_name s) in
      let a := cdel (s_attrs s) (txt "SystemSignalLongSymbol") in
      if chars_eqb (s_name s) short || negb shorten then
        let* p := short_signals c shorten r defs in
        Ok (with_name_attrs s (s_name s) a :: fst p, snd p)
      else
        let* p := short_signals c shorten r (ensure defs long_signal) in
        Ok (with_name_attrs s short (set_long a (s_name s) defs long_signal) :: fst p, snd p)
  end.
(** dbc.py:2138-2156 *)
Definition short_rels (c : names_map) (shorten : bool) (fid : Z) (sr : sig_relations) : sig_relations :=
  if shorten then
    match dget Z.eqb sr fid with
    | None => sr
    | Some sm => dset Z.eqb sr fid (fold_left (fun acc kv => cset acc (match nget c (fst kv) with Some s => s | None => fst kv end) (snd kv)) sm [])
    end
  else sr.
(** dbc.py:2159-2187 *)
Fixpoint short_signal_names (shorten : bool) (ms : list dmessage) (defs : definitions) (sr : sig_relations) : result (list dmessage * definitions * sig_relations) :=
  match ms with
  | [] => Ok ([], defs, sr)
  | m :: r =>
      let* c := converter (map s_name (m_signals m)) in
      let sr := short_rels c shorten (frame m) sr in
      let* p := short_signals c shorten (m_signals m) defs in
      let* g := match m_groups m with
                | None => Ok None
                | Some gs => if shorten then
                               let* gs := mapM (fun g => let* l := mapM (short_of c) (g_signals g) in Ok (Group (g_name g) (g_repetitions g) l)) gs in Ok (Some gs)
                             else Ok (Some gs)
                end in
      let* q := short_signal_names shorten r (snd p) sr in
      Ok (with_signals m (m_senders m) (fst p) g :: fst (fst q), snd (fst q), snd q)
  end.
Definition with_envvar_name (e : envvar) (n : chars) (a : attrs) : envvar :=
  Envvar n (e_type e) (e_min e) (e_max e) (e_unit e) (e_initial e) (e_id e) (e_access e) (e_node e) (e_comment e) a.
(** dbc.py:2190-2208: the keys of the dictionary stay. *)
Fixpoint short_envvars (c : names_map) (shorten : bool) (l : list (chars * envvar)) (defs : definitions) : result (list (chars * envvar) * definitions) :=
  match l with
  | [] => Ok ([], defs)
  | (k, e) :: r =>
      let* short := short_of c (e_name e) in
      let a := cdel (e_attrs e) (txt "SystemEnvVarLongSymbol") in
      if chars_eqb (e_name e) short || negb shorten then
        let* p := short_envvars c shorten r defs in
        Ok ((k, with_envvar_name e (e_name e) a) :: fst p, snd p)
      else
        let* p := short_envvars c shorten r (ensure defs long_envvar) in
        Ok ((k, with_envvar_name e short (set_long a (e_name e) defs long_envvar)) :: fst p, snd p)
  end.
(** dbc.py:2211-2222 *)
Definition make_names_unique (shorten : bool) (db : database) : result database :=
  let* c := converter (map n_name (db_nodes db)) in
  let* p := short_nodes c shorten (db_nodes db) (db_messages db) (db_definitions db) in
  let '(nodes, ms, defs) := p in
  let* c := converter (map m_name ms) in
  let* p := short_messages c shorten ms defs in
  let* q := short_signal_names shorten (fst p) (snd p) (db_sig_rels db) in
  let '(ms, defs, sr) := q in
  let* c := converter (map (fun e => e_name (snd e)) (db_envvars db)) in
  let* p := short_envvars c shorten (db_envvars db) defs in
  Ok (with_parts db nodes ms (snd p) (fst p) sr).

(** ** Synchronising the attributes with the objects *)
(** dbc.py:740-791: the definitions that are written *)
Definition is_can_fd (db : database) : bool :=
  match cget (db_attrs db) (txt "BusType") with Some (Attr (AStr v) _) => chars_eqb v (txt "CAN FD") | _ => false end.
Definition one_baudrate (db : database) : option Z := match db_buses db with [b] => b_baudrate b | _ => None end.
Definition some {A} (o : option A) : bool := match o with Some _ => true | None => false end.
Definition dump_definitions (db : database) : definitions :=
  let d := db_definitions db in
  let d := if existsb (fun m => some (m_cycle_time m)) (db_messages db) then ensure d def_cycle_time else d in
  let d := if existsb (fun m => existsb (fun s => some (s_initial s)) (m_signals m)) (db_messages db) then ensure d def_start_value else d in
  let d := if some (one_baudrate db) then ensure d def_baudrate else cdel d (txt "Baudrate") in
  if is_can_fd db then ensure (ensure d def_frame_format) def_brs else d.
(** dbc.py:1765-1784 *)
Definition enum_frame_format (d : definition) : result definition :=
  if type_is d "INT" then
    match d_default d with
    | None => Err ParseError
    | Some v => let* i := match v with AInt z => Ok z | AFloat f => match f_trunc (f_text f) with Some z => Ok z | None => Err ValueError end
                                     | AStr s => match int_text s with Some z => Ok z | None => Err ValueError end end in
                match (if i <? 0 then nth_error frame_formats (Z.to_nat (zlen frame_formats + i)) else nth_error frame_formats (Z.to_nat i)) with
                | Some c => if i <? - zlen frame_formats then Err IndexError
                            else Ok (Def (d_name def_frame_format) (Some (AStr c)) (d_kind def_frame_format) (d_type def_frame_format) None None frame_formats)
                | None => Err IndexError
                end
    end
  else Ok d.
Definition value_eqb (a b : aval) : bool :=
  match a, b with
  | AInt x, AInt y => x =? y
  | AInt x, AFloat f | AFloat f, AInt x => f_is_int f x
  | AFloat f, AFloat g => f_same f g
  | AStr x, AStr y => chars_eqb x y
  | _, _ => false
  end.
Definition opt_value_eqb (a : aval) (b : option aval) : bool := match b with Some b => value_eqb a b | None => false end.
(** [x or 0] *)
Definition falsy (v : aval) : bool := match v with AInt z => z =? 0 | AFloat f => f_is_int f 0 | AStr s => match s with [] => true | _ => false end end.
Definition or_zero (o : option aval) : aval := match o with Some v => if falsy v then AInt 0 else v | None => AInt 0 end.
Definition index_of (x : chars) (l : list chars) : option nat :=
  (fix go (l : list chars) (i : nat) := match l with [] => None | y :: r => if chars_eqb x y then Some i else go r (S i) end) l O.
Definition frame_format_name (m : dmessage) : chars :=
  txt (if m_j1939 m then "J1939PG" else if m_fd m && m_extended m then "ExtendedCAN_FD" else if m_fd m then "StandardCAN_FD"
       else if m_extended m then "ExtendedCAN" else "StandardCAN").
(** dbc.py:920-963 *)
Definition message_attrs (defs : definitions) (m : dmessage) : result attrs :=
  let a := m_attrs m in
  let cycle := or_zero (m_cycle_time m) in
  let a := match cget defs (txt "GenMsgCycleTime") with
           | Some d => if negb (opt_value_eqb cycle (d_default d)) then cset a (txt "GenMsgCycleTime") (Attr cycle d) else cdel a (txt "GenMsgCycleTime")
           | None => cdel a (txt "GenMsgCycleTime")
           end in
  match cget defs (txt "VFrameFormat") with
  | None => Ok a
  | Some d =>
      let* d := enum_frame_format d in
      match index_of (frame_format_name m) (d_choices d) with
      | Some i => if negb (opt_value_eqb (AStr (frame_format_name m)) (d_default d))
                  then Ok (cset a (txt "VFrameFormat") (Attr (AStr (decimal (Z.of_nat i))) d)) else Ok a
      | None => Ok a
      end
  end.
(** dbc.py:975-986 *)
Definition to_float (n : num) : F := match n with DInt z => f_int z | DFloat f => f end.
Definition signal_attrs (s : dsignal) : attrs :=
  match s_initial s with
  | None => cdel (s_attrs s) (txt "GenSigStartValue")
  | Some v => cset (s_attrs s) (txt "GenSigStartValue") (Attr (AFloat (to_float v)) def_start_value)
  end.
(** dbc.py:887-904 *)
Definition database_attrs (defs : definitions) (db : database) : result attrs :=
  let a := cdel (db_attrs db) (txt "Baudrate") in
  match one_baudrate db with
  | None => Ok a
  | Some b => match cget defs (txt "Baudrate") with
              | None => Err ParseError
              | Some d => Ok (cset a (txt "Baudrate") (Attr (AInt b) d))
              end
  end.

(** ** The statements *)
Definition quoted_kind (d : definition) (v : aval) : value_text := if type_is d "STRING" then VString (aval_text v) else VNumber (aval_text v).
Definition attr_value (a : attribute) : value_text := quoted_kind (a_def a) (a_value a).
Definition kind_of (a : attribute) : string := match d_kind (a_def a) with Some k => k | None => "None" end.
Definition attr_stmt (t : attribute -> list target) (a : chars * attribute) : stmt := SAttr (d_name (a_def (snd a))) (t (snd a)) (attr_value (snd a)).
(** dbc.py:601-612 *)
Definition descending (l : list (Z * chars)) : list (Z * chars) := rev (sorted_py (fun a b => fst a <=? fst b) l).
Definition choice_texts (l : list (Z * chars)) : list (chars * chars) := map (fun p => (decimal (fst p), snd p)) l.
Definition table_stmt (t : chars * list (Z * chars)) : stmt := SValTable (fst t) (choice_texts (descending (snd t))).
(** dbc.py:618-667 *)
Definition mux_text (s : dsignal) : result (option chars) :=
  if s_is_mux s then Ok (Some ["M"%char])
  else match s_mux_ids s with
       | Some (i :: _) => Ok (Some ("m"%char :: decimal i))
       | Some [] => Err IndexError
       | None => Ok None
       end.
Definition or_zero_text (n : option num) : chars := match n with Some n => num_text n | None => decimal 0 end.
Definition or_xxx (l : list chars) : list chars := match l with [] => [vector_xxx] | _ => l end.
Definition signal_stmt (s : dsignal) : result sg_stmt :=
  let* mux := mux_text s in
  Ok (SgStmt (s_name s) mux (decimal (s_start s)) (decimal (s_length s)) (if s_big s then decimal 0 else decimal 1)
        (if s_signed s then "-"%char else "+"%char) (num_text (s_scale s)) (num_text (s_offset s)) (or_zero_text (s_min s)) (or_zero_text (s_max s))
        (match s_unit s with Some u => u | None => [] end) (or_xxx (s_receivers s))).
Definition message_stmt (m : dmessage) : result stmt :=
  let* l := mapM signal_stmt (dump_order (m_signals m)) in
  Ok (SMessage (frame_text m) (m_name m) (decimal (m_length m)) (hd vector_xxx (m_senders m)) l).
(** dbc.py:670-680 *)
Definition senders_stmts (m : dmessage) : list stmt :=
  match m_senders m with _ :: _ :: _ => [SSenders (frame_text m) (m_senders m)] | _ => [] end.
(** dbc.py:683-723 *)
Definition comment_stmt (t : option target) (c : option chars) : list stmt := match c with Some c => [SComment t c] | None => [] end.
Definition bus_comment (b : bus) : list stmt := comment_stmt None (b_comment b).
Definition node_comment (n : node) : list stmt := comment_stmt (Some ("BU_", None, Some (n_name n))) (n_comment n).
Definition signal_comment (m : dmessage) (s : dsignal) : list stmt := comment_stmt (Some ("SG_", Some (frame_text m), Some (s_name s))) (s_comment s).
Definition message_comment (m : dmessage) : list stmt :=
  comment_stmt (Some ("BO_", Some (frame_text m), None)) (m_comment m) ++ flat_map (signal_comment m) (dump_order (m_signals m)).
Definition envvar_comment (e : chars * envvar) : list stmt := comment_stmt (Some ("EV_", None, Some (e_name (snd e)))) (e_comment (snd e)).
Definition comment_stmts (db : database) : list stmt :=
  flat_map bus_comment (db_buses db) ++ flat_map node_comment (db_nodes db) ++ flat_map message_comment (db_messages db) ++
  flat_map envvar_comment (db_envvars db).
(** dbc.py:726-737: KeyError for other lengths *)
Definition type_stmts (m : dmessage) : result (list stmt) :=
  let* l := mapM (fun s => if s_float s then
                             (if s_length s =? 32 then Ok [SSigType (frame_text m) (s_name s) (decimal 1)]
                              else if s_length s =? 64 then Ok [SSigType (frame_text m) (s_name s) (decimal 2)] else Err KeyError)
                           else Ok []) (m_signals m) in
  Ok (List.concat l).
(** dbc.py:796-833 *)
Definition opt_list {A} (o : option A) : list A := match o with Some x => [x] | None => [] end.
Definition def_texts (d : definition) : list value_text :=
  if type_is d "ENUM" then map VString (d_choices d)
  else if type_is d "STRING" then []
  else map (fun n => VNumber (num_text n)) (opt_list (d_min d) ++ opt_list (d_max d)).
Definition known_type (d : definition) : bool := type_is d "ENUM" || type_is d "INT" || type_is d "FLOAT" || type_is d "HEX" || type_is d "STRING".
Definition definition_stmts (make : option string -> chars -> chars -> list value_text -> stmt) (l : definitions) : list stmt :=
  flat_map (fun p => let d := snd p in if known_type d then [make (d_kind d) (d_name d) (d_type d) (def_texts d)] else []) l.
(** dbc.py:836-876 *)
Definition default_stmts (make : chars -> value_text -> stmt) (l : definitions) : list stmt :=
  flat_map (fun p => let d := snd p in
                     match d_default d with
                     | Some v => [make (d_name d) (if type_is d "STRING" || type_is d "ENUM" then VString (aval_text v) else VNumber (aval_text v))]
                     | None => []
                     end) l.
(** dbc.py:907-1039 *)
Definition attribute_stmts (defs : definitions) (db : database) : result (list stmt) :=
  let* da := database_attrs defs db in
  let* ma := mapM (fun m =>
               let* a := message_attrs defs m in
               Ok (map (attr_stmt (fun a => [(kind_of a, Some (frame_text m), None)])) a ++
                   flat_map (fun s => map (attr_stmt (fun a => [(kind_of a, Some (frame_text m), Some (s_name s))])) (signal_attrs s)) (dump_order (m_signals m))))
               (db_messages db) in
  Ok (map (attr_stmt (fun _ => [])) da ++
      flat_map (fun e => map (attr_stmt (fun a => [(kind_of a, None, Some (e_name (snd e)))])) (e_attrs (snd e))) (db_envvars db) ++
      flat_map (fun n => map (attr_stmt (fun a => [(kind_of a, None, Some (n_name n))])) (n_attrs n)) (db_nodes db) ++
      List.concat ma).
(** dbc.py:1042-1069 *)
Definition rel_stmts (db : database) : list stmt :=
  flat_map (fun f => flat_map (fun s => flat_map (fun n => map (fun a => SSigRel (d_name (a_def (snd a))) (fst n) (decimal (fst f)) (fst s) (attr_value (snd a)))
    (snd n)) (snd s)) (snd f)) (db_sig_rels db) ++
  flat_map (fun f => flat_map (fun n => map (fun a => SMsgRel (d_name (a_def (snd a))) (fst n) (decimal (fst f)) (attr_value (snd a))) (snd n)) (snd f)) (db_msg_rels db).
(** dbc.py:1072-1095 *)
Definition choice_stmts (m : dmessage) : list stmt :=
  flat_map (fun s => match s_choices s with Some c => [SVal (Some (frame_text m)) (s_name s) (choice_texts c)] | None => [] end) (dump_order (m_signals m)).
(** dbc.py:1098-1116 *)
Definition group_stmts (m : dmessage) : list stmt :=
  match m_groups m with
  | None => []
  | Some gs => map (fun g => SGroup (frame_text m) (g_name g) (decimal (g_repetitions g))
                               (filter (fun n => chars_in n (map s_name (m_signals m))) (g_signals g))) gs
  end.
(** dbc.py:1119-1139 *)
Definition extended_mux (ms : list dmessage) : bool :=
  existsb (fun m => Nat.ltb 1 (List.length (filter s_is_mux (m_signals m))) ||
                    existsb (fun s => match s_mux_ids s with Some l => Nat.ltb 1 (List.length l) | None => false end) (m_signals m)) ms.
(** dbc.py:1167-1191 *)
Definition mux_stmts (m : dmessage) : result (list stmt) :=
  let* l := mapM (fun s => match s_mux_ids s with
                           | None | Some [] => Ok []
                           | Some ids => let* r := create_mux_ranges ids in
                                         Ok [SMux (frame_text m) (s_name s) (match s_mux_signal s with Some n => n | None => txt "None" end)
                                               (map (fun p => (decimal (fst p), "-"%char :: decimal (snd p))) r)]
                           end) (m_signals m) in
  Ok (List.concat l).
(** dbc.py:1194-1208 *)
Definition envvar_stmt (p : chars * envvar) : stmt :=
  let e := snd p in
  SEnv (e_name e) (decimal (e_type e)) (num_text (e_min e)) (num_text (e_max e)) (e_unit e) (num_text (e_initial e)) (decimal (e_id e)) (e_access e) (e_node e).

(** The part of dump_string after the names (dbc.py:2252-2285) *)
Definition dump_file (db : database) : result dbc_file :=
  let defs := dump_definitions db in
  let* ms := mapM message_stmt (db_messages db) in
  let* types := mapM type_stmts (db_messages db) in
  let* at_ := attribute_stmts defs db in
  let* mux := if extended_mux (db_messages db) then mapM mux_stmts (db_messages db) else Ok [] in
  Ok (DbcFile (match db_version db with Some v => v | None => [] end) (map n_name (db_nodes db)) (map table_stmt (db_tables db)) ms
        (flat_map senders_stmts (db_messages db)) (map envvar_stmt (db_envvars db)) (comment_stmts db)
        (definition_stmts SDef defs) (definition_stmts SRelDef (db_rel_definitions db)) (default_stmts SDefault defs)
        (default_stmts SRelDefault (db_rel_definitions db)) at_ (rel_stmts db) (flat_map choice_stmts (db_messages db)) (List.concat types)
        (flat_map group_stmts (db_messages db)) (List.concat mux)).
(** dbc.py:2225-2285 with the default sort functions *)
Definition dump_string (shorten : bool) (db : database) : result chars :=
  let* db := remove_special_chars db in
  let* db := make_names_unique shorten db in
  let* f := dump_file db in
  Ok (file_text f).
End Dbc.
