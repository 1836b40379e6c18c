(** Container: model of container messages, src/cantools/database/can/message.py:571-613, 665-725,
    809-883, 993-1054, 1137-1203.

    Simplifications: contained messages are ordinary messages (not containers themselves); headers
    and payloads of other Python types than those below raise EncodeError in the code and are left
    out; bytes are lists of integers 0..255. *)
From Verif Require Import Base PyNum Conversion Signal Message.

(** A message with its header id (message.py:71-74). *)
Record contained := mkContained { ct_msg : message; ct_header : option Z }.

(** The attributes of a container message used below. *)
Record container := mkContainer {
  cn_length : Z;
  cn_big_header : bool;              (* header_byte_order == 'big_endian' *)
  cn_contained : list contained
}.

(** message.py:325-331 *)
Definition is_container (c : container) : bool := match cn_contained c with [] => false | _ => true end.

(** typechecking.py ContainerHeaderSpecType: name, message object or header id *)
Inductive header := HName (n : string) | HMsg (c : contained) | HInt (z : Z).
(** the payload of a contained message: raw bytes or signal values *)
Inductive payload := PBytes (l : list Z) | PDict (d : list (string * value)).

(** message.py:1178-1190 *)
Definition by_header_id (c : container) (h : option Z) : result (option contained) :=
  match filter (fun x => option_eqb Z.eqb (ct_header x) h) (cn_contained c) with
  | [] => Ok None
  | [x] => Ok (Some x)
  | _ => Err CantoolsError
  end.
(** message.py:1192-1203 *)
Definition by_name (c : container) (n : string) : result (option contained) :=
  match filter (fun x => String.eqb (m_name (ct_msg x)) n) (cn_contained c) with
  | [] => Ok None
  | [x] => Ok (Some x)
  | _ => Err CantoolsError
  end.

(** message.py:816-833 *)
Definition find_contained (c : container) (h : header) : result (option contained) :=
  match h with
  | HName n => by_name c n
  | HMsg x => by_header_id c (ct_header x)
  | HInt z => by_header_id c (Some z)
  end.

(** message.py:840-872: the header id and the payload bytes of one list element *)
Definition contained_header (o : option contained) (h : header) (p : payload) : result Z :=
  match o with
  | None => match h, p with HInt z, PBytes _ => Ok z | _, _ => Err EncodeError end
  | Some x => match ct_header x with Some z => Ok z | None => Err AssertionError end
  end.
Definition contained_payload (o : option contained) (p : payload) (scaling padding : bool) : result (list Z) :=
  match p, o with
  | PBytes l, _ => Ok l
  | PDict d, Some x => encode (ct_msg x) d scaling padding false
  | PDict _, None => Err AssertionError
  end.

(** message.py:809-883 [_encode_container] *)
Fixpoint encode_items (c : container) (items : list (header * payload)) (scaling padding : bool) : result (list Z) :=
  match items with
  | [] => Ok []
  | (h, p) :: r =>
      let* o := find_contained c h in
      let* id := contained_header o h p in
      let* body := contained_payload o p scaling padding in
      let* hd := (if cn_big_header c then to_bytes_be 3 id else to_bytes_le 3 id) in
      let* ln := to_bytes_be 1 (zlen body) in
      let* rest := encode_items c r scaling padding in
      Ok (hd ++ ln ++ body ++ rest)
  end.

(** message.py:693-707: as [find_contained], but a message object without header id is an error *)
Definition find_contained_strict (c : container) (h : header) : result (option contained) :=
  match h with
  | HMsg x => match ct_header x with None => Err EncodeError | Some z => by_header_id c (Some z) end
  | _ => find_contained c h
  end.

(** message.py:665-725 [assert_container_encodable] *)
Fixpoint assert_container_encodable (c : container) (items : list (header * payload)) (scaling : bool) : result unit :=
  match items with
  | [] => Ok tt
  | (h, p) :: r =>
      let* _ :=
        match h, p with
        | HInt _, PBytes _ => Ok tt
        | _, _ =>
            let* o := find_contained_strict c h in
            match o with
            | None => Err EncodeError
            | Some x =>
                match p with
                | PBytes l => if zlen l =? m_length (ct_msg x) then Ok tt else Err EncodeError
                | PDict d => assert_signals_encodable (m_signals (ct_msg x)) (m_codec (ct_msg x)) d scaling
                end
            end
        end in
      assert_container_encodable c r scaling
  end.

(** message.py:923-936 [encode] of a container *)
Definition encode_container (c : container) (items : list (header * payload)) (scaling padding strict : bool)
  : result (list Z) :=
  let* _ := (if strict then assert_container_encodable c items scaling else Ok tt) in
  encode_items c items scaling padding.

(** message.py:1021-1052: the loop; [fuel] bounds the number of iterations (each consumes 4 bytes or
    more; C22_unpack_total shows it is never exhausted).  The list is the unread rest of the data. *)
Fixpoint unpack_loop (fuel : nat) (c : container) (data : list Z) (allow_truncated : bool)
  : result (list ((Z + contained) * list Z)) :=
  match fuel with
  | O => Err RecursionError
  | S fuel' =>
      match data with
      | [] => Ok []
      | a :: b :: d :: len :: rest =>
          let id := from_be [a; b; d] in
          let* len' := (if zlen rest <? len then
                          if allow_truncated then Ok (zlen rest) else Err DecodeError
                        else Ok len) in
          let body := slice 0 len' rest in
          let* o := by_header_id c (Some id) in
          let* tl := unpack_loop fuel' c (skipn (Z.to_nat len') rest) allow_truncated in
          Ok ((match o with None => inl id | Some x => inr x end, body) :: tl)
      | _ => Ok []
      end
  end.

(** message.py:993-1054 [unpack_container] *)
Definition unpack_container (c : container) (data : list Z) (allow_truncated : bool)
  : result (list ((Z + contained) * list Z)) :=
  if negb (is_container c) then Err DecodeError
  else if cn_length c <? zlen data then Err DecodeError
  else unpack_loop (S (List.length data)) c data allow_truncated.

(** message.py:1137-1176 [decode_container] *)
Fixpoint decode_items (l : list ((Z + contained) * list Z)) (dc sc at_ ae : bool)
  : result (list ((Z + contained) * payload)) :=
  match l with
  | [] => Ok []
  | (inl id, body) :: r => let* tl := decode_items r dc sc at_ ae in Ok ((inl id, PBytes body) :: tl)
  | (inr x, body) :: r =>
      let* p := match decode (ct_msg x) body dc sc at_ ae with
                | Ok d => Ok (PDict d)
                | Err ValueError | Err DecodeError => Ok (PBytes body)
                | Err e => Err e
                end in
      let* tl := decode_items r dc sc at_ ae in
      Ok ((inr x, p) :: tl)
  end.
Definition decode_container (c : container) (data : list Z) (dc sc at_ ae : bool)
  : result (list ((Z + contained) * payload)) :=
  if negb (is_container c) then Err DecodeError
  else let* l := unpack_container c data at_ in decode_items l dc sc at_ ae.

(** message.py:571-613 [gather_container] *)
Fixpoint gather_container (c : container) (hs : list header) (d : list (string * value))
  : result (list (contained * list (string * value))) :=
  match hs with
  | [] => Ok []
  | h :: r =>
      let* o := match h with
                | HMsg x => match ct_header x with None => Err AssertionError | Some z => by_header_id c (Some z) end
                | _ => find_contained c h
                end in
      match o with
      | None => Err EncodeError
      | Some x =>
          let* s := gather_signals (ct_msg x) d in
          let* tl := gather_container c r d in
          Ok ((x, s) :: tl)
      end
  end.
