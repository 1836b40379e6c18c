(** DbcSame: specification of the DBC round trip: which databases a DBC file can hold ([good]), and when a database that
    was read is the same as the one that was written ([same_database]). *)
From Coq Require Import Ascii Permutation.
From Verif Require Import Base CSource CNames Regex DecText DbcNames DbcToken DbcLex DbcStmt DbcPieces DbcParse DbcGrammar DbcDump DbcLoad DbcTables DbcFit.
Local Open Scope string_scope.
Local Open Scope Z_scope.
Local Open Scope list_scope.

Section Same.
Context {FL : Floats} {LW : FloatLaws FL}.
Implicit Types (db : database) (m : dmessage) (s : dsignal) (defs : definitions) (d : definition).

(** ** Definitions *)
Definition kind_eqb (a b : option string) : bool :=
  match a, b with Some x, Some y => String.eqb x y | None, None => true | _, _ => false end.
Definition is_float (n : num) : bool := match n with DFloat _ => true | DInt _ => false end.
(** The numbers of FLOAT definitions are floats, as they are when read from a file. *)
Definition real_def d : bool :=
  negb (is_float_type (d_type d)) ||
  (opt_ok is_float (d_min d) && opt_ok is_float (d_max d) && opt_ok (fun v => match v with AFloat _ => true | _ => false end) (d_default d)).
(** The frame formats that a VFrameFormat definition names, and the default one.  An INT definition means the standard list. *)
Definition formats d : option (list chars * chars) :=
  if type_is d "ENUM" then match d_default d with Some (AStr s) => Some (d_choices d, s) | _ => None end
  else if type_is d "INT" then
    match d_default d with
    | Some (AInt i) => if 0 <=? i then option_map (pair frame_formats) (nth_error frame_formats (Z.to_nat i)) else None
    | _ => None
    end
  else None.
(** The definitions with a meaning have the type and the kind of object that the meaning needs. *)
Definition standard : list (string * (definition -> bool)) :=
  let string_of k := fun d => type_is d "STRING" && kind_eqb (d_kind d) k in
  let int_of k := fun d => is_int_type (d_type d) && kind_eqb (d_kind d) k in
  [("SystemNodeLongSymbol", string_of (Some "BU_")); ("SystemMessageLongSymbol", string_of (Some "BO_"));
   ("SystemSignalLongSymbol", string_of (Some "SG_")); ("SystemEnvVarLongSymbol", string_of (Some "EV_"));
   ("GenMsgCycleTime", int_of (Some "BO_")); ("GenSigStartValue", fun d => is_float_type (d_type d) || is_int_type (d_type d));
   ("VFrameFormat", fun d => some (formats d) && kind_eqb (d_kind d) (Some "BO_")); ("Baudrate", int_of None);
   ("GenMsgSendType", fun d => type_is d "STRING" || type_is d "ENUM"); ("SPN", fun d => is_int_type (d_type d));
   ("DBName", string_of None)].
Definition good_def d : bool := forallb (fun p => negb (chars_eqb (d_name d) (txt (fst p))) || snd p d) standard.
Definition good_defs defs : bool := defs_ok false defs && forallb (fun p => good_def (snd p)) defs.
Definition real_defs defs : bool := forallb (fun p => real_def (snd p)) defs.
Definition good_rel_defs defs : bool := defs_ok true defs && real_defs defs.

(** ** Attributes: the value has the type of its definition *)
Definition typed (t : chars) (v : aval) : bool :=
  if is_int_type t || chars_eqb t (txt "ENUM") then match v with AInt _ => true | _ => false end
  else if is_float_type t then match v with AFloat f => f_finite f | _ => false end
  else match v with AStr s => plain_text s | _ => false end.
Definition good_attr defs (k : option string) (x : chars * attribute) : bool :=
  chars_eqb (fst x) (d_name (a_def (snd x))) && kind_eqb (d_kind (a_def (snd x))) k &&
  match cget defs (fst x) with
  | Some d => kind_eqb (d_kind d) k && Bool.eqb (type_is (a_def (snd x)) "STRING") (type_is d "STRING") && typed (d_type d) (a_value (snd x))
  | None => false
  end.
Definition good_attrs defs k (a : attrs) : bool := forallb (good_attr defs k) a && nodup_by chars_eqb (map fst a).

(** ** Nodes, environment variables, tables *)
Definition is_short (n : chars) : bool := Nat.leb (List.length n) 32.
Definition good_node defs (n : node) : bool := name_ok (n_name n) && comment_fits (n_comment n) && good_attrs defs (Some "BU_") (n_attrs n).
Definition good_nodes db : bool :=
  forallb (good_node (db_definitions db)) (db_nodes db) && nodup_by chars_eqb (map n_name (db_nodes db)) && (zlen (db_nodes db) <=? 10000).
(** A name that senders and receivers may use: a node, or any name if no node name has to be shortened *)
Definition known db (n : chars) : bool :=
  name_ok n && negb (chars_eqb n vector_xxx) && (chars_in n (map n_name (db_nodes db)) || forallb (fun x => is_short (n_name x)) (db_nodes db)).
Definition good_envvar defs (p : chars * envvar) : bool :=
  let e := snd p in
  chars_eqb (fst p) (e_name e) && name_ok (e_name e) && num_ok (e_min e) && num_ok (e_max e) && num_ok (e_initial e) && comment_ok (e_unit e) &&
  name_ok (e_access e) && name_ok (e_node e) && comment_fits (e_comment e) && good_attrs defs (Some "EV_") (e_attrs e).
Definition good_envvars db : bool :=
  forallb (good_envvar (db_definitions db)) (db_envvars db) && nodup_by chars_eqb (map fst (db_envvars db)).

(** ** Signals *)
Definition spn_said defs (a : attrs) : option aval :=
  match cget a (txt "SPN") with
  | Some x => Some (a_value x)
  | None => match cget defs (txt "SPN") with Some d => d_default d | None => None end
  end.
Definition same_int (a b : option aval) : bool :=
  match a, b with None, None => true | Some (AInt x), Some (AInt y) => x =? y | _, _ => false end.
(** The initial value is an attribute: a float, or an integer if the definition says so. *)
Definition int_start defs : bool := match cget defs (txt "GenSigStartValue") with Some d => is_int_type (d_type d) | None => false end.
Definition good_initial defs (v : num) : bool := real_ok v && negb (int_start defs && is_float v).
Definition read_initial defs (v : num) : num := if int_start defs then v else DFloat (to_float v).
Definition good_signal db s : bool :=
  name_ok (s_name s) && num_ok (s_scale s) && num_ok (s_offset s) && opt_ok num_ok (s_min s) && opt_ok num_ok (s_max s) && opt_ok plain_text (s_unit s) &&
  forallb (known db) (s_receivers s) && comment_fits (s_comment s) && opt_ok (fun c => nonempty c && pairs_ok c) (s_choices s) &&
  (negb (s_float s) || (s_length s =? 32) || (s_length s =? 64)) && opt_ok (good_initial (db_definitions db)) (s_initial s) && opt_ok is_short (s_mux_signal s) &&
  same_int (s_spn s) (spn_said (db_definitions db) (s_attrs s)) && good_attrs (db_definitions db) (Some "SG_") (s_attrs s).

(** ** Messages *)
Definition opt_chars_eqb (a b : option chars) : bool := match a, b with Some x, Some y => chars_eqb x y | None, None => true | _, _ => false end.
Definition send_type_said defs (a : attrs) : option chars :=
  match cget defs (txt "GenMsgSendType") with
  | None => None
  | Some d => match cget a (txt "GenMsgSendType") with
              | Some x => match a_value x with AStr t => Some t | AInt i => if 0 <=? i then nth_error (d_choices d) (Z.to_nat i) else None | AFloat _ => None end
              | None => match d_default d with Some (AStr t) => Some t | _ => None end
              end
  end.
Definition good_send_type defs m : bool :=
  opt_chars_eqb (m_send_type m) (send_type_said defs (m_attrs m)) && (negb (cmem (m_attrs m) (txt "GenMsgSendType")) || some (m_send_type m)).
(** The frame formats that the messages can have *)
Definition all_formats db : option (list chars * chars) :=
  match cget (db_definitions db) (txt "VFrameFormat") with
  | Some d => formats d
  | None => if is_can_fd db then Some (frame_formats, txt "StandardCAN") else None
  end.
Definition format_text m : string :=
  match m_j1939 m, m_fd m, m_extended m with
  | true, _, _ => "J1939PG"
  | false, true, true => "ExtendedCAN_FD"
  | false, true, false => "StandardCAN_FD"
  | false, false, true => "ExtendedCAN"
  | false, false, false => "StandardCAN"
  end.
Definition good_format db m : bool :=
  negb (m_j1939 m && m_fd m) &&
  match all_formats db with
  | None => negb (m_j1939 m || m_fd m)
  | Some (choices, default) =>
      chars_in (txt (format_text m)) choices &&
      (negb (chars_eqb (txt (format_text m)) default) ||
       match cget (m_attrs m) (txt "VFrameFormat") with
       | None => true
       | Some x => match a_value x with AInt i => (0 <=? i) && opt_chars_eqb (nth_error choices (Z.to_nat i)) (Some default) | _ => false end
       end)
  end.
Definition good_message db m : bool :=
  let defs := db_definitions db in
  name_ok (m_name m) && negb (chars_eqb (m_name m) (txt "VECTOR__INDEPENDENT_SIG_MSG")) && (0 <=? m_id m) && (m_id m <? 2 ^ 31) && (0 <=? m_length m) &&
  forallb (known db) (m_senders m) && nodup_by chars_eqb (m_senders m) && comment_fits (m_comment m) && nodup_by chars_eqb (map s_name (m_signals m)) &&
  forallb (good_signal db) (m_signals m) && forallb (fit_mux (m_signals m)) (m_signals m) &&
  opt_ok (forallb (fun g => name_ok (g_name g) && forallb (fun n => chars_in n (map s_name (m_signals m))) (g_signals g))) (m_groups m) &&
  opt_ok (fun v => match v with AInt _ => true | _ => false end) (m_cycle_time m) && good_send_type defs m && good_format db m &&
  good_attrs defs (Some "BO_") (m_attrs m).
Definition good_messages db : bool :=
  forallb (good_message db) (db_messages db) && nodup_by chars_eqb (map m_name (db_messages db)) && nodup_by Z.eqb (map frame (db_messages db)).

(** ** Bus: a DBC file describes one, and its name is an attribute of the database. *)
Definition name_said db : chars := match cget (db_attrs db) (txt "DBName") with Some x => aval_text (a_value x) | None => [] end.
Definition good_bus db : bool :=
  match db_buses db with
  | [] => negb (nonempty (name_said db))
  | [b] => chars_eqb (b_name b) (name_said db) && opt_ok plain_text (b_comment b) &&
           (nonempty (b_name b) || opt_ok (fun z => negb (z =? 0)) (b_baudrate b) && some (b_baudrate b) || opt_ok nonempty (b_comment b) && some (b_comment b))
  | _ => false
  end.

(** ** Relations between nodes and signals or messages *)
Definition good_node_rels defs k (l : list (chars * attrs)) : bool :=
  forallb (fun p => name_ok (fst p) && good_attrs defs k (snd p) && nonempty (snd p)) l && nodup_by chars_eqb (map fst l) && nonempty l.
Definition good_msg_rels db : bool :=
  forallb (fun p => good_node_rels (db_rel_definitions db) (Some "BU_BO_REL_") (snd p)) (db_msg_rels db) && nodup_by Z.eqb (map fst (db_msg_rels db)).
(** The signals are those of the message, or no signal name of the message has to be shortened. *)
Definition good_rel_names db (fid : Z) (names : list chars) : bool :=
  forallb (fun m => negb (frame m =? fid) || forallb (fun n => chars_in n (map s_name (m_signals m))) names || forallb (fun s => is_short (s_name s)) (m_signals m))
    (db_messages db).
Definition good_sig_rels db : bool :=
  forallb (fun p => forallb (fun q => name_ok (fst q) && good_node_rels (db_rel_definitions db) (Some "BU_SG_REL_") (snd q)) (snd p) &&
                    nodup_by chars_eqb (map fst (snd p)) && nonempty (snd p) && good_rel_names db (fst p) (map fst (snd p))) (db_sig_rels db) &&
  nodup_by Z.eqb (map fst (db_sig_rels db)).

(** ** The databases that a DBC file can hold *)
Definition good db : bool :=
  opt_ok plain_text (db_version db) && good_defs (db_definitions db) && real_defs (db_definitions db) && good_rel_defs (db_rel_definitions db) && good_nodes db && good_envvars db &&
  good_messages db && good_bus db && good_attrs (db_definitions db) None (db_attrs db) && forallb fit_table (db_tables db) &&
  nodup_by chars_eqb (map fst (db_tables db)) && good_sig_rels db && good_msg_rels db.

(** ** The same database.  Attributes that dump derives from other fields are left to those fields. *)
Definition same_attrs (managed : list string) (defs : definitions) (a a' : attrs) : Prop :=
  (forall n, ~ In n (map txt managed) -> option_map a_value (cget a' n) = option_map a_value (cget a n)) /\
  (forall n x, cget a' n = Some x -> cget defs n = Some (a_def x)).
Definition same_node defs (n n' : node) : Prop :=
  n_name n' = n_name n /\ n_comment n' = n_comment n /\ same_attrs ["SystemNodeLongSymbol"] defs (n_attrs n) (n_attrs n').
Definition same_envvar defs (p p' : chars * envvar) : Prop :=
  let e := snd p in let e' := snd p' in
  fst p' = fst p /\ e_name e' = e_name e /\ e_type e' = e_type e /\ e_min e' = e_min e /\ e_max e' = e_max e /\ e_unit e' = e_unit e /\ e_initial e' = e_initial e /\
  e_id e' = e_id e /\ e_access e' = e_access e /\ e_node e' = e_node e /\ e_comment e' = e_comment e /\
  same_attrs ["SystemEnvVarLongSymbol"] defs (e_attrs e) (e_attrs e').
Definition same_set (a b : list Z) : Prop := NoDup b /\ forall x, In x b <-> In x a.
(** A DBC file always has both limits.  "0|0" stands for none. *)
Definition no_limit (b : option num) : bool := match b with None => true | Some (DInt z) => z =? 0 | Some (DFloat _) => false end.
Definition read_limit s (b : option num) : option num :=
  if no_limit (s_min s) && no_limit (s_max s) then None else Some (match b with Some n => n | None => DInt 0 end).
Definition same_signal defs s s' : Prop :=
  s_name s' = s_name s /\ s_start s' = s_start s /\ s_length s' = s_length s /\ s_big s' = s_big s /\ s_signed s' = s_signed s /\
  s_initial s' = option_map (read_initial defs) (s_initial s) /\ s_scale s' = s_scale s /\ s_offset s' = s_offset s /\ s_float s' = s_float s /\
  s_choices s' = s_choices s /\ s_min s' = read_limit s (s_min s) /\ s_max s' = read_limit s (s_max s) /\
  s_unit s' = (match s_unit s with Some [] => None | u => u end) /\ s_comment s' = s_comment s /\ s_receivers s' = s_receivers s /\ s_is_mux s' = s_is_mux s /\
  match s_mux_ids s, s_mux_ids s' with None, None => True | Some a, Some b => same_set a b | _, _ => False end /\ s_mux_signal s' = s_mux_signal s /\
  s_spn s' = s_spn s /\ same_attrs ["SystemSignalLongSymbol"; "GenSigStartValue"] defs (s_attrs s) (s_attrs s').
Definition same_message defs m m' : Prop :=
  m_id m' = m_id m /\ m_extended m' = m_extended m /\ m_name m' = m_name m /\ m_length m' = m_length m /\ m_senders m' = m_senders m /\
  m_send_type m' = m_send_type m /\
  m_cycle_time m' = (match m_cycle_time m with Some (AInt z) => if z =? 0 then None else Some (AInt z) | c => c end) /\
  m_comment m' = m_comment m /\
  (exists l, Permutation l (m_signals m) /\ Forall2 (same_signal defs) l (m_signals m')) /\ m_j1939 m' = m_j1939 m /\ m_fd m' = m_fd m /\
  m_groups m' = (match m_groups m with Some [] => None | g => g end) /\
  same_attrs ["SystemMessageLongSymbol"; "GenMsgCycleTime"; "VFrameFormat"] defs (m_attrs m) (m_attrs m').
Definition same_named {A B} (R : B -> B -> Prop) (p p' : A * B) : Prop := fst p' = fst p /\ R (snd p) (snd p').
Definition same_node_rels defs : list (chars * attrs) -> list (chars * attrs) -> Prop := Forall2 (same_named (same_attrs [] defs)).
Definition same_database db db' : Prop :=
  db_version db' = Some (match db_version db with Some v => v | None => [] end) /\
  Forall2 (same_node (db_definitions db')) (db_nodes db) (db_nodes db') /\
  db_buses db' = db_buses db /\
  Forall2 (same_message (db_definitions db')) (db_messages db) (db_messages db') /\
  same_attrs ["Baudrate"] (db_definitions db') (db_attrs db) (db_attrs db') /\
  (forall n d, n <> txt "Baudrate" -> cget (db_definitions db) n = Some d -> cget (db_definitions db') n = Some d) /\
  Forall2 (same_envvar (db_definitions db')) (db_envvars db) (db_envvars db') /\
  Forall2 (same_named (@Permutation (Z * chars))) (db_tables db) (db_tables db') /\
  Forall2 (same_named (Forall2 (same_named (same_node_rels (db_rel_definitions db'))))) (db_sig_rels db) (db_sig_rels db') /\
  Forall2 (same_named (same_node_rels (db_rel_definitions db'))) (db_msg_rels db) (db_msg_rels db') /\
  db_rel_definitions db' = db_rel_definitions db.
End Same.
