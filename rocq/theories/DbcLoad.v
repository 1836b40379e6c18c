(** DbcLoad: the database that a DBC file describes (database/can/formats/dbc.py:1211-2015 and 2288-2443).
    The nested dictionaries that hold comments and attributes by frame id and name are flat ones here, with the whole
    path as the key.  The result holds the constructor arguments of the objects: the checks that the constructors of
    Message and Signal make are those of the message model and are not repeated.  The order of list(set(ids)) is left
    open. *)
From Coq Require Import Ascii.
From Verif Require Import Base CSource CNames Regex DecText DbcNames DbcToken DbcStmt DbcDump.
Local Open Scope string_scope.
Local Open Scope Z_scope.
Local Open Scope list_scope.

Section Load.
Context {FL : Floats} (set_list : list Z -> list Z).

(** ** Numbers *)
(** int(text) *)
Definition int_of (t : chars) : result Z := match int_text t with Some z => Ok z | None => Err ValueError end.
(** int(text, 0) for the texts of NUMBER tokens: a leading zero is only allowed in zero. *)
Definition int0_of (t : chars) : result Z :=
  let d := match t with c :: r => if Ascii.eqb c "-" || Ascii.eqb c "+" then r else t | [] => [] end in
  match d with
  | c :: _ :: _ => if Ascii.eqb c "0" && negb (forallb (Ascii.eqb "0") d) then Err ValueError else int_of t
  | _ => int_of t
  end.
(** formats/utils.py:1-12 *)
Definition read_num (t : chars) : result num :=
  match int_text t with
  | Some z => Ok (DInt z)
  | None => match f_read t with Some f => Ok (DFloat f) | None => Err ValueError end
  end.
(** dbc.py:311-319 *)
Definition to_int (t : chars) : result Z :=
  match int_text t with
  | Some z => Ok z
  | None => match f_trunc t with Some z => Ok z | None => Err ValueError end
  end.
Definition to_real (t : chars) : result F := match f_read t with Some f => Ok f | None => Err ValueError end.
(** int(value) *)
Definition aval_int (v : aval) : result Z :=
  match v with AInt z => Ok z | AFloat f => to_int (f_text f) | AStr s => int_of s end.
(** list[index] *)
Definition py_index {A} (l : list A) (i : Z) : result A :=
  if i <? - zlen l then Err IndexError
  else match nth_error l (Z.to_nat (if i <? 0 then zlen l + i else i)) with Some x => Ok x | None => Err IndexError end.

(** ** The dictionary that textparser returns: the statements of one keyword *)
Definition keyword (s : stmt) : string :=
  match s with
  | SVersion _ => "VERSION" | SNs => "NS_" | SBs => "BS_" | SNodes _ => "BU_" | SMessage _ _ _ _ _ => "BO_"
  | SEnv _ _ _ _ _ _ _ _ _ => "EV_" | SSenders _ _ => "BO_TX_BU_" | SComment _ _ => "CM_" | SDef _ _ _ _ => "BA_DEF_"
  | SRelDef _ _ _ _ => "BA_DEF_REL_" | SDefault _ _ => "BA_DEF_DEF_" | SRelDefault _ _ => "BA_DEF_DEF_REL_" | SAttr _ _ _ => "BA_"
  | SSigRel _ _ _ _ _ | SMsgRel _ _ _ _ => "BA_REL_" | SVal _ _ _ => "VAL_" | SValTable _ _ => "VAL_TABLE_" | SSigType _ _ _ => "SIG_VALTYPE_"
  | SGroup _ _ _ _ => "SIG_GROUP_" | SMux _ _ _ _ => "SG_MUL_VAL_"
  end.
Definition get_stmts (k : string) (l : list stmt) : list stmt := filter (fun s => String.eqb (keyword s) k) l.
(** The contributions of the statements of one keyword *)
Definition collect {A} (f : stmt -> result (list A)) (k : string) (l : list stmt) : result (list A) :=
  let* r := mapM f (get_stmts k l) in Ok (List.concat r).

(** The object that a comment or an attribute belongs to *)
Inductive okey := KDb | KNode (n : chars) | KEnv (n : chars) | KMsg (id : Z) | KSig (id : Z) (n : chars).
Definition okey_eqb (a b : okey) : bool :=
  match a, b with
  | KDb, KDb => true
  | KNode x, KNode y | KEnv x, KEnv y => chars_eqb x y
  | KMsg x, KMsg y => x =? y
  | KSig x a, KSig y b => (x =? y) && chars_eqb a b
  | _, _ => false
  end.
Definition target_key (t : target) : result okey :=
  match t with
  | (k, Some i, Some n) => if String.eqb k "SG_" then let* z := int_of i in Ok (KSig z n) else Err ParseError
  | (k, Some i, None) => if String.eqb k "BO_" then let* z := int_of i in Ok (KMsg z) else Err ParseError
  | (k, None, Some n) => if String.eqb k "BU_" then Ok (KNode n) else if String.eqb k "EV_" then Ok (KEnv n) else Err ParseError
  | (_, None, None) => Err ParseError
  end.

(** ** dbc.py:1211-1249 *)
Definition load_comments (l : list stmt) : result (list (okey * chars)) :=
  collect (fun s => match s with SComment (Some t) c => let* k := target_key t in Ok [(k, c)] | _ => Ok [] end) "CM_" l.
Definition comments_dict (l : list (okey * chars)) : list (okey * chars) := dupdate okey_eqb [] l.
Definition bus_comments (l : list stmt) : list chars :=
  flat_map (fun s => match s with SComment None c => [c] | _ => [] end) (get_stmts "CM_" l).
Definition bus_comment_of (l : list stmt) : option chars := match bus_comments l with [] => None | c => Some (List.concat c) end.

(** ** Definitions (dbc.py:1252-1277, 2288-2362) *)
Definition value_chars (v : value_text) : chars := match v with VNumber t | VString t => t end.
Definition convert_value (type : chars) (v : chars) : result aval :=
  if chars_eqb type (txt "INT") || chars_eqb type (txt "HEX") then let* z := to_int v in Ok (AInt z)
  else if chars_eqb type (txt "FLOAT") then let* f := to_real v in Ok (AFloat f)
  else Ok (AStr v).
(** The bounds are numbers: their conversion never gives text for the three types. *)
Definition bound (type : chars) (l : list value_text) (i : nat) : result (option num) :=
  match nth_error l i with
  | None => Err IndexError
  | Some v => let* v := convert_value type (value_chars v) in
              match v with AInt z => Ok (Some (DInt z)) | AFloat f => Ok (Some (DFloat f)) | AStr _ => Err ParseError end
  end.
Definition numeric_type (t : chars) : bool := chars_eqb t (txt "INT") || chars_eqb t (txt "FLOAT") || chars_eqb t (txt "HEX").
Definition default_dict (rel : bool) (l : list stmt) : list (chars * value_text) :=
  dupdate chars_eqb []
    (flat_map (fun s => match s, rel with SDefault n v, false | SRelDefault n v, true => [(n, v)] | _, _ => [] end)
       (get_stmts (if rel then "BA_DEF_DEF_REL_" else "BA_DEF_DEF_") l)).
Definition make_definition (defaults : list (chars * value_text)) (k : option string) (n t : chars) (vs : list value_text) : result definition :=
  let* b := (if numeric_type t then
               match vs with [] => Ok (None, None) | _ => let* mn := bound t vs 0 in let* mx := bound t vs 1 in Ok (mn, mx) end
             else Ok (None, None)) in
  let* d := match cget defaults n with Some v => let* v := convert_value t (value_chars v) in Ok (Some v) | None => Ok None end in
  Ok (Def n d k t (fst b) (snd b) (if chars_eqb t (txt "ENUM") then map value_chars vs else [])).
Definition load_definitions (rel : bool) (l : list stmt) : result definitions :=
  let* ds := collect (fun s => match s, rel with
                               | SDef k n t vs, false | SRelDef k n t vs, true => let* d := make_definition (default_dict rel l) k n t vs in Ok [(n, d)]
                               | _, _ => Ok []
                               end) (if rel then "BA_DEF_REL_" else "BA_DEF_") l in
  Ok (dupdate chars_eqb [] ds).

(** ** Attributes (dbc.py:1280-1397) *)
Definition make_attribute (defs : definitions) (n : chars) (v : value_text) : result attribute :=
  match cget defs n with
  | None => Err KeyError
  | Some d =>
      let t := d_type d in
      let* x := (if chars_eqb t (txt "INT") || chars_eqb t (txt "HEX") || chars_eqb t (txt "ENUM") then let* z := to_int (value_chars v) in Ok (AInt z)
                 else if chars_eqb t (txt "FLOAT") then let* f := to_real (value_chars v) in Ok (AFloat f)
                 else Ok (AStr (value_chars v))) in
      Ok (Attr x d)
  end.
(** Only the first target counts. *)
Definition attribute_item (defs : definitions) (s : stmt) : result (list (okey * (chars * attribute))) :=
  match s with
  | SAttr n ts v =>
      let* k := match ts with [] => Ok KDb | t :: _ => target_key t end in
      let* a := make_attribute defs n v in
      Ok [(k, (n, a))]
  | _ => Ok []
  end.
(** d.setdefault(key, {})[name] = value *)
Definition put {K A} (eqb : K -> K -> bool) (d : list (K * list (chars * A))) (x : K * (chars * A)) : list (K * list (chars * A)) :=
  dset eqb d (fst x) (cset (match dget eqb d (fst x) with Some a => a | None => [] end) (fst (snd x)) (snd (snd x))).
Definition nest {K A} (eqb : K -> K -> bool) (l : list (K * (chars * A))) : list (K * list (chars * A)) := fold_left (put eqb) l [].
Definition attributes := list (okey * attrs).
Definition load_attributes (defs : definitions) (l : list stmt) : result attributes :=
  let* xs := collect (attribute_item defs) "BA_" l in Ok (nest okey_eqb xs).
Definition attrs_of (a : attributes) (k : okey) : attrs := match dget okey_eqb a k with Some x => x | None => [] end.

(** Relations: a path of keys and the attribute *)
Definition relation_item (defs : definitions) (s : stmt) : result (list ((Z * (chars * (chars * (chars * attribute)))) + (Z * (chars * (chars * attribute))))) :=
  match s with
  | SSigRel n nd i sg v => let* z := int_of i in let* a := make_attribute defs n v in Ok [inl (z, (sg, (nd, (n, a))))]
  | SMsgRel n nd i v => let* z := int_of i in let* a := make_attribute defs n v in Ok [inr (z, (nd, (n, a)))]
  | _ => Ok []
  end.
Definition or_empty {A} (o : option (list A)) : list A := match o with Some l => l | None => [] end.
Definition put_msg_rel (d : msg_relations) (x : Z * (chars * (chars * attribute))) : msg_relations :=
  dset Z.eqb d (fst x) (put chars_eqb (or_empty (dget Z.eqb d (fst x))) (snd x)).
Definition put_sig_rel (d : sig_relations) (x : Z * (chars * (chars * (chars * attribute)))) : sig_relations :=
  let sm := or_empty (dget Z.eqb d (fst x)) in
  let sg := fst (snd x) in
  dset Z.eqb d (fst x) (cset sm sg (put chars_eqb (or_empty (cget sm sg)) (snd (snd x)))).
Definition lefts {A B} (l : list (A + B)) : list A := flat_map (fun x => match x with inl a => [a] | inr _ => [] end) l.
Definition rights {A B} (l : list (A + B)) : list B := flat_map (fun x => match x with inr b => [b] | inl _ => [] end) l.
Definition load_relations (defs : definitions) (l : list stmt) : result (sig_relations * msg_relations) :=
  let* xs := collect (relation_item defs) "BA_REL_" l in
  Ok (fold_left put_sig_rel (lefts xs) [], fold_left put_msg_rel (rights xs) []).

(** ** Long names (dbc.py:576-586 and the local functions of the loaders) *)
Definition long_name (symbol : string) (a : attrs) (short : chars) : chars :=
  match cget a (txt symbol) with Some x => aval_text (a_value x) | None => short end.
Definition node_long (a : attributes) (n : chars) : chars := long_name "SystemNodeLongSymbol" (attrs_of a (KNode n)) n.
Definition signal_long (a : attributes) (fid : Z) (n : chars) : chars := long_name "SystemSignalLongSymbol" (attrs_of a (KSig fid n)) n.

(** ** Value tables and choices (dbc.py:1400-1458) *)
Definition read_pairs (l : list (chars * chars)) : result (list (Z * chars)) :=
  let* l := mapM (fun p => let* z := int_of (fst p) in Ok (z, snd p)) l in Ok (dupdate Z.eqb [] l).
Definition load_tables (l : list stmt) : result (list (chars * list (Z * chars))) :=
  let* ts := collect (fun s => match s with SValTable n ps => let* ps := read_pairs ps in Ok [(n, ps)] | _ => Ok [] end) "VAL_TABLE_" l in
  Ok (dupdate chars_eqb [] ts).
Definition zc_eqb (a b : Z * chars) : bool := (fst a =? fst b) && chars_eqb (snd a) (snd b).
Definition load_choices (l : list stmt) : result (list ((Z * chars) * list (Z * chars))) :=
  let* cs := collect (fun s => match s with
                               | SVal (Some i) n ps => let* ps := read_pairs ps in
                                                       match ps with [] => Ok [] | _ => let* z := int_of i in Ok [((z, n), ps)] end
                               | _ => Ok []
                               end) "VAL_" l in
  Ok (dupdate zc_eqb [] cs).

(** ** Senders, signal types, multiplexer values and groups (dbc.py:1460-1556) *)
Definition load_senders (a : attributes) (l : list stmt) : result (list (Z * chars)) :=
  collect (fun s => match s with SSenders i ns => let* z := int_of i in Ok (map (fun n => (z, node_long a n)) ns) | _ => Ok [] end) "BO_TX_BU_" l.
Definition of_frame {A} (fid : Z) (l : list (Z * A)) : list A := flat_map (fun p => if fst p =? fid then [snd p] else []) l.
Definition load_types (l : list stmt) : result (list ((Z * chars) * Z)) :=
  let* ts := collect (fun s => match s with SSigType i n t => let* z := int_of i in let* t := int_of t in Ok [((z, n), t)] | _ => Ok [] end) "SIG_VALTYPE_" l in
  Ok (dupdate zc_eqb [] ts).
Definition read_ranges (l : list (chars * chars)) : result (list Z) :=
  let* l := mapM (fun r => let* a := int_of (fst r) in let* b := int_of (tl (snd r)) in Ok (a, b)) l in Ok (range_ids l).
Definition mux_values := list (chars * list (chars * list Z)).
Definition load_mux_values (l : list stmt) : result (list (Z * (chars * (chars * list Z)))) :=
  collect (fun s => match s with
                    | SMux i n m rs => let* z := int_of i in let* ids := read_ranges rs in Ok [(z, (m, (n, ids)))]
                    | _ => Ok []
                    end) "SG_MUL_VAL_" l.
(** The dictionary of one frame: multiplexer name, signal name, ids *)
Definition frame_mux (l : list (Z * (chars * (chars * list Z)))) (fid : Z) : mux_values := nest chars_eqb (of_frame fid l).
Definition load_groups (a : attributes) (l : list stmt) : result (list (Z * group)) :=
  collect (fun s => match s with
                    | SGroup i n r ns => let* z := int_of i in let* r := int_of r in Ok [(z, Group n r (map (signal_long a z) ns))]
                    | _ => Ok []
                    end) "SIG_GROUP_" l.
Definition frame_groups (l : list (Z * group)) (fid : Z) : option (list group) := match of_frame fid l with [] => None | g => Some g end.

(** ** Signals (dbc.py:1559-1762) *)
(** dbc.py:1574-1576: the last multiplexer that lists the signal *)
Definition mux_of (mv : mux_values) (n : chars) : option chars :=
  fold_left (fun acc p => if cmem (snd p) n then Some (fst p) else acc) mv None.
Definition ends_in_M (m : chars) : bool := match rev m with c :: _ => Ascii.eqb c "M" | [] => false end.
Definition is_mux_field (m : option chars) : bool := match m with Some m => ends_in_M m | None => false end.
Definition signal_mux_ids (mv : mux_values) (mux : option chars) (n : chars) (m : option chars) : result (option (list Z)) :=
  let* ids := match mux, m with
              | Some _, Some mk => if ends_in_M mk then Ok []
                                   else match mk with
                                        | c :: r => if Ascii.eqb c "m" then let* z := int_of r in Ok [z] else Err AssertionError
                                        | [] => Err AssertionError
                                        end
              | _, _ => Ok []
              end in
  match (match mux with Some x => Some x | None => mux_of mv n end) with
  | None => Ok None
  | Some x => let more := match cget mv x with Some e => or_empty (cget e n) | None => [] end in
              match ids ++ more with [] => Ok None | l => Ok (Some (set_list l)) end
  end.
Definition signal_mux_name (mv : mux_values) (mux : option chars) (n : chars) (m : option chars) : option chars :=
  match m with
  | None => None
  | Some _ => match mux with
              | None => mux_of mv n
              | Some x => if chars_eqb n x then None else Some x
              end
  end.
Definition only_xxx (l : list chars) : bool := match l with [x] => chars_eqb x vector_xxx | _ => false end.
Definition is_zero_text (t : chars) : bool := chars_eqb t (txt "0").
(** What the loaders of messages and signals look up *)
Record tables := Tables {
  t_comments : list (okey * chars); t_attrs : attributes; t_defs : definitions; t_choices : list ((Z * chars) * list (Z * chars));
  t_senders : list (Z * chars); t_types : list ((Z * chars) * Z); t_mux : list (Z * (chars * (chars * list Z))); t_groups : list (Z * group) }.
Definition initial_value (a : attrs) : result (option num) :=
  match cget a (txt "GenSigStartValue") with
  | Some x => match a_value x with AInt z => Ok (Some (DInt z)) | AFloat f => Ok (Some (DFloat f)) | AStr _ => Err ParseError end
  | None => Ok None
  end.
Definition spn_of (a : attrs) (defs : definitions) : result (option aval) :=
  match cget a (txt "SPN") with
  | Some x => match a_value x with AInt z => Ok (Some (AInt z)) | _ => Err ParseError end
  | None => match cget defs (txt "SPN") with Some d => Ok (d_default d) | None => Ok None end
  end.
Definition load_signal (t : tables) (fid : Z) (mux : option chars) (s : sg_stmt) : result dsignal :=
  let n := ss_name s in
  let a := attrs_of (t_attrs t) (KSig fid n) in
  let mv := frame_mux (t_mux t) fid in
  let* start := int_of (ss_start s) in
  let* len := int_of (ss_length s) in
  let* initial := initial_value a in
  let* scale := read_num (ss_scale s) in
  let* offset := read_num (ss_offset s) in
  let unlimited := is_zero_text (ss_min s) && is_zero_text (ss_max s) in
  let* mn := if unlimited then Ok None else let* x := read_num (ss_min s) in Ok (Some x) in
  let* mx := if unlimited then Ok None else let* x := read_num (ss_max s) in Ok (Some x) in
  let* spn := spn_of a (t_defs t) in
  let* ids := signal_mux_ids mv mux n (ss_mux s) in
  Ok (DSignal (signal_long (t_attrs t) fid n) start len (chars_eqb (ss_order s) (txt "0")) (Ascii.eqb (ss_sign s) "-") initial scale offset
        (match dget zc_eqb (t_types t) (fid, n) with Some k => (k =? 1) || (k =? 2) | None => false end)
        (dget zc_eqb (t_choices t) (fid, n)) mn mx
        (match ss_unit s with [] => None | u => Some u end) (dget okey_eqb (t_comments t) (KSig fid n))
        (map (node_long (t_attrs t)) (if only_xxx (ss_receivers s) then [] else ss_receivers s))
        (is_mux_field (ss_mux s)) ids (signal_mux_name mv mux n (ss_mux s)) spn a).

(** ** Messages (dbc.py:1786-1975) *)
Definition send_type_of (defs : definitions) (a : attrs) : result (option chars) :=
  match cget defs (txt "GenMsgSendType") with
  | None => Ok None
  | Some d =>
      match cget a (txt "GenMsgSendType") with
      | Some x => match d_choices d with
                  | [] => match a_value x with AStr s => Ok (Some s) | _ => Err ParseError end
                  | c => let* i := aval_int (a_value x) in let* r := py_index c i in Ok (Some r)
                  end
      | None => match d_default d with None => Ok None | Some (AStr s) => Ok (Some s) | Some _ => Err ParseError end
      end
  end.
(** [x or None] *)
Definition or_none (o : option aval) : option aval := match o with Some v => if falsy v then None else Some v | None => None end.
Definition cycle_time_of (defs : definitions) (a : attrs) : option aval :=
  match cget defs (txt "GenMsgCycleTime") with
  | None => None
  | Some d => match cget a (txt "GenMsgCycleTime") with Some x => or_none (Some (a_value x)) | None => or_none (d_default d) end
  end.
Definition frame_format_of (defs : definitions) (a : attrs) : result (option chars) :=
  match cget defs (txt "VFrameFormat") with
  | None => Ok None
  | Some d =>
      let* d := enum_frame_format d in
      match cget a (txt "VFrameFormat") with
      | Some x => match a_value x with AInt i => let* c := py_index (d_choices d) i in Ok (Some c) | _ => Err ParseError end
      | None => match d_default d with Some v => Ok (Some (aval_text v)) | None => Err UnboundLocalError end
      end
  end.
(** str.endswith *)
Definition ends_with (suffix s : chars) : bool :=
  Nat.leb (List.length suffix) (List.length s) && chars_eqb (skipn (List.length s - List.length suffix) s) suffix.
(** dbc.py:1932-1942: the only multiplexer *)
Definition only_mux (l : list sg_stmt) : option chars :=
  match filter (fun s => is_mux_field (ss_mux s)) l with [s] => Some (ss_name s) | _ => None end.
Definition add_new (l : list chars) (x : chars) : list chars := if chars_in x l then l else l ++ [x].
Definition load_message (t : tables) (s : stmt) : result (list dmessage) :=
  match s with
  | SMessage i n len sender sgs =>
      if chars_eqb n (txt "VECTOR__INDEPENDENT_SIG_MSG") then Ok []
      else
        let* fid := int_of i in
        let a := attrs_of (t_attrs t) (KMsg fid) in
        let* ff := frame_format_of (t_defs t) a in
        let senders := fold_left add_new (of_frame fid (t_senders t)) [node_long (t_attrs t) sender] in
        let* sigs := mapM (load_signal t fid (only_mux sgs)) sgs in
        let* length := int0_of len in
        let* send_type := send_type_of (t_defs t) a in
        Ok [DMessage (fst (load_frame_id fid)) (snd (load_frame_id fid)) (long_name "SystemMessageLongSymbol" a n) length
              (if only_xxx senders then [] else senders) send_type (cycle_time_of (t_defs t) a) (dget okey_eqb (t_comments t) (KMsg fid))
              (sort_signals sigs) (match ff with Some f => chars_eqb f (txt "J1939PG") | None => false end)
              (match ff with Some f => ends_with (txt "CAN_FD") f | None => false end) (frame_groups (t_groups t) fid) a]
  | _ => Ok []
  end.

(** ** Bus, nodes, version, environment variables (dbc.py:1417-1438, 1978-2015) *)
Definition load_bus (a : attributes) (comment : option chars) : result (list bus) :=
  let db := attrs_of a KDb in
  let* name := match cget db (txt "DBName") with Some x => match a_value x with AStr s => Ok s | _ => Err ParseError end | None => Ok [] end in
  let* baud := match cget db (txt "Baudrate") with Some x => match a_value x with AInt z => Ok (Some z) | _ => Err ParseError end | None => Ok None end in
  if (match name with [] => true | _ => false end) && (match baud with Some z => z =? 0 | None => true end) &&
     (match comment with Some (_ :: _) => false | _ => true end)
  then Ok [] else Ok [Bus name baud comment].
Definition load_nodes (cs : list (okey * chars)) (a : attributes) (l : list stmt) : list node :=
  fold_left (fun acc s => match s with
                          | SNodes ns => map (fun n => Node (node_long a n) (dget okey_eqb cs (KNode n)) (attrs_of a (KNode n))) ns
                          | _ => acc
                          end) (get_stmts "BU_" l) [].
Definition load_version (l : list stmt) : option chars := match get_stmts "VERSION" l with SVersion v :: _ => Some v | _ => None end.
Definition load_envvars (cs : list (okey * chars)) (a : attributes) (l : list stmt) : result (list (chars * envvar)) :=
  let* es := collect (fun s => match s with
                               | SEnv n t mn mx u v i ac nd =>
                                   let at_ := attrs_of a (KEnv n) in
                                   let long := long_name "SystemEnvVarLongSymbol" at_ n in
                                   let* t := int_of t in let* mn := read_num mn in let* mx := read_num mx in let* v := read_num v in let* i := int_of i in
                                   Ok [(long, Envvar long t mn mx u v i ac nd (dget okey_eqb cs (KEnv n)) at_)]
                               | _ => Ok []
                               end) "EV_" l in
  Ok (dupdate chars_eqb [] es).
(** dbc.py:2365-2386 *)
Definition rename_rels (a : attributes) (ms : list dmessage) (sr : sig_relations) : sig_relations :=
  fold_left (fun sr m =>
               match dget Z.eqb sr (frame m) with
               | None => sr
               | Some sm => dset Z.eqb sr (frame m) (dupdate chars_eqb [] (map (fun p => (signal_long a (frame m) (fst p), snd p)) sm))
               end) ms sr.

(** ** dbc.py:2389-2443 *)
Definition load_stmts (l : list stmt) : result database :=
  let* cs := load_comments l in
  let cs := comments_dict cs in
  let* defs := load_definitions false l in
  let* a := load_attributes defs l in
  let* rdefs := load_definitions true l in
  let* rels := load_relations rdefs l in
  let* buses := load_bus a (bus_comment_of l) in
  let* tables := load_tables l in
  let* choices := load_choices l in
  let* senders := load_senders a l in
  let* types := load_types l in
  let* mux := load_mux_values l in
  let* groups := load_groups a l in
  let* ms := collect (load_message (Tables cs a defs choices senders types mux groups)) "BO_" l in
  let* ev := load_envvars cs a l in
  Ok (Db (load_version l) (load_nodes cs a l) buses ms (attrs_of a KDb) defs ev tables (rename_rels a ms (fst rels)) (snd rels) rdefs).
Definition load_string (s : chars) : result database := match parse s with Some l => load_stmts l | None => Err ParseError end.
End Load.
