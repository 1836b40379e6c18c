(** Database: model of src/cantools/database/can/database.py, lookup tables and the encode/decode
    front ends.

    Simplifications: nodes, buses, version and format specifics are not part of the state; of the
    two kinds of encode input the wrong one is always answered with EncodeError. *)
From Verif Require Import Base PyNum Conversion Signal Message Container.

(** A message of a database: an ordinary message, and what makes it a container if it has
    contained messages. *)
Record entry := mkEntry { e_msg : message; e_big_header : bool; e_contained : list contained }.
Definition e_container (e : entry) : container := mkContainer (m_length (e_msg e)) (e_big_header e) (e_contained e).

(** database.py:48-71; the tables are dictionaries *)
Record database := mkDatabase {
  db_messages : list entry;
  db_by_name : list (string * entry);      (* _name_to_message *)
  db_by_id : list (Z * entry);             (* _frame_id_to_message *)
  db_mask : Z;                             (* _frame_id_mask *)
  db_strict : bool
}.

(** database.py:424-426: key of the frame id table *)
Definition masked_id (mask : Z) (m : message) : Z :=
  let k := Z.land (m_frame_id m) mask in
  if m_extended m then Z.lor k 0x80000000 else k.

(** database.py:419-443 [_add_message] *)
Definition add_message (db : database) (e : entry) : database :=
  mkDatabase (db_messages db) (sset (db_by_name db) (m_name (e_msg e)) e)
             (zset (db_by_id db) (masked_id (db_mask db) (e_msg e)) e) (db_mask db) (db_strict db).

(** message.py:1288-1311 called with the strictness of the database *)
Definition refresh_message (m : message) (strict : bool) : result message :=
  let* (c, t) := refresh (m_signals m) (m_length m) strict in
  Ok (mkMessage (m_frame_id m) (m_extended m) (m_name m) (m_length m) (m_unused m) (m_signals m) (m_strict m) c t).
Definition refresh_entry (strict : bool) (e : entry) : result entry :=
  let* m := refresh_message (e_msg e) strict in Ok (mkEntry m (e_big_header e) (e_contained e)).

(** database.py:637-651 [refresh]: message objects are updated in place *)
Definition refresh_db (db : database) : result database :=
  let* ms := mapM (refresh_entry (db_strict db)) (db_messages db) in
  Ok (fold_left add_message ms (mkDatabase ms [] [] (db_mask db) (db_strict db))).

(** database.py:46-71 [__init__]: frame_id_mask defaults to 0xffffffff *)
Definition new_database (ms : list entry) (mask : option Z) (strict : bool) : result database :=
  refresh_db (mkDatabase ms [] [] (match mask with Some x => x | None => 0xffffffff end) strict).

(** database.py:260-417: every add_* method appends the loaded messages and refreshes *)
Definition add_messages (db : database) (ms : list entry) : result database :=
  refresh_db (mkDatabase (db_messages db ++ ms) (db_by_name db) (db_by_id db) (db_mask db) (db_strict db)).

(** database.py:499-504 *)
Definition get_message_by_name (db : database) (n : string) : result entry := sget_exn (db_by_name db) n.

Definition zget_exn {V} (d : list (Z * V)) (k : Z) : result V :=
  match zget d k with Some v => Ok v | None => Err KeyError end.

(** database.py:506-514 *)
Definition extend_id (id : Z) (force_extended : bool) : Z :=
  if force_extended || (0x7FF <? id) then Z.lor id 0x80000000 else id.
Definition get_message_by_frame_id (db : database) (id : Z) (force_extended : bool) : result entry :=
  zget_exn (db_by_id db) (Z.land (extend_id id force_extended) (Z.lor 0x80000000 (db_mask db))).

(** [frame_id_or_name] *)
Inductive key := KId (z : Z) | KName (n : string).
(** database.py:566-573 and 606-613: the lookup of encode_message and decode_message (no mask) *)
Definition find_message (db : database) (k : key) (force_extended : bool) : result entry :=
  match k with
  | KId z => zget_exn (db_by_id db) (extend_id z force_extended)
  | KName n => sget_exn (db_by_name db) n
  end.

Inductive input := IDict (d : list (string * value)) | IItems (l : list (header * payload)).
Inductive output := ODict (d : list (string * value)) | OItems (l : list ((Z + contained) * payload)).

(** message.py:885-953 [encode] of any message *)
Definition entry_encode (e : entry) (i : input) (scaling padding strict : bool) : result (list Z) :=
  if is_container (e_container e) then
    match i with IItems l => encode_container (e_container e) l scaling padding strict | IDict _ => Err EncodeError end
  else
    match i with IDict d => encode (e_msg e) d scaling padding strict | IItems _ => Err EncodeError end.
(** message.py:1056-1109 [decode] of any message *)
Definition entry_decode (e : entry) (data : list Z) (dc sc containers at_ ae : bool) : result output :=
  if is_container (e_container e) then
    if containers then let* l := decode_container (e_container e) data dc sc at_ ae in Ok (OItems l)
    else Err DecodeError
  else let* d := decode (e_msg e) data dc sc at_ ae in Ok (ODict d).

(** database.py:538-575 *)
Definition encode_message (db : database) (k : key) (i : input) (scaling padding strict force : bool) : result (list Z) :=
  let* e := find_message db k force in entry_encode e i scaling padding strict.
(** database.py:577-635 (allow_excess keeps its default True) *)
Definition decode_message (db : database) (k : key) (data : list Z) (dc sc containers at_ force : bool) : result output :=
  let* e := find_message db k force in entry_decode e data dc sc containers at_ true.
