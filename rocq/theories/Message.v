(** Message: model of src/cantools/database/can/message.py (ordinary messages; containers are in
    Container.v). *)
From Coq Require Import Floats.SpecFloat.
From Verif Require Import Base PyNum Conversion Signal Bitstruct Formats.

(** typechecking.py [Codec]: signals, formats, multiplexers *)
Inductive codec :=
| Codec (sigs : list signal) (fmts : formats) (muxes : list (string * list (Z * codec))).

Definition c_sigs (c : codec) := let 'Codec s _ _ := c in s.
Definition c_fmts (c : codec) := let 'Codec _ f _ := c in f.
Definition c_muxes (c : codec) := let 'Codec _ _ m := c in m.

(** message.py:161-169: does the signal belong to node (parent, multiplexer id)? *)
Definition belongs (parent : option string) (mid : option Z) (s : signal) : bool :=
  option_eqb String.eqb (s_mux_sig s) parent &&
  match mid with
  | None => true
  | Some i => match s_mux_ids s with None => false | Some ids => zmem i ids end
  end.

(** Set insertion; message.py iterates over a Python set, whose order is unspecified: we use the
    order of first insertion. *)
Definition set_add (l : list Z) (x : Z) : list Z := if zmem x l then l else l ++ [x].

(** message.py:171-189: ids for which a branch is created *)
Definition children_ids (all : list signal) (s : signal) : list Z :=
  let ids :=
    fold_left (fun acc c =>
                 if option_eqb String.eqb (s_mux_sig c) (Some (s_name s)) then
                   match s_mux_ids c with
                   | Some l => fold_left set_add l acc
                   | None => acc
                   end
                 else acc) all [] in
  match conv_choices (s_conv s) with
  | Some ch => fold_left set_add (map fst ch) ids
  | None => ids
  end.

(** [multiplexers[name][id] = codec] creating the inner dict when missing: message.py:194-197 *)
Definition mux_put (m : list (string * list (Z * codec))) (name : string) (id : Z) (c : codec) :=
  sset m name (zset (match sget m name with Some d => d | None => [] end) id c).

(** message.py:145-204 [_create_codec].  The Python recursion is unbounded; it does not terminate
    (RecursionError) exactly when a multiplexer is its own ancestor, which is when the depth
    exceeds the number of signals, hence the fuel. *)
Fixpoint create_codec (fuel : nat) (all : list signal) (nbytes : Z)
         (parent : option string) (mid : option Z) : result codec :=
  match fuel with
  | O => Err RecursionError
  | S f =>
      let here := filter (belongs parent mid) all in
      let* muxes :=
         foldM (fun m s =>
                  if s_is_mux s then
                    foldM (fun m i =>
                             let* c := create_codec f all nbytes (Some (s_name s)) (Some i) in
                             Ok (mux_put m (s_name s) i c))
                          (children_ids all s) m
                  else Ok m) here [] in
      let* fm := create_formats here nbytes in
      Ok (Codec here fm muxes)
  end.

(** message.py:206-230 [_create_signal_tree] *)
Inductive stree :=
| STree (nodes : list (string * option (list (Z * stree)))).

Fixpoint create_signal_tree (c : codec) : stree :=
  match c with
  | Codec sigs _ muxes =>
      STree
        (map (fun s =>
                (s_name s,
                 (fix look (ms : list (string * list (Z * codec))) :=
                    match ms with
                    | [] => None
                    | (n, bs) :: r =>
                        if String.eqb n (s_name s) then
                          Some ((fix go (bs : list (Z * codec)) :=
                                   match bs with
                                   | [] => []
                                   | (i, c') :: r' => (i, create_signal_tree c') :: go r'
                                   end) bs)
                        else look r
                    end) muxes)) sigs)
  end.

(** message.py:1304 [_signal_dict]; duplicate names: last wins *)
Definition signal_dict (l : list signal) : list (string * signal) :=
  fold_left (fun d s => sset d (s_name s) s) l [].
(** message.py:1206-1207 [get_signal_by_name] *)
Definition get_signal (l : list signal) (name : string) : result signal :=
  sget_exn (signal_dict l) name.

(** message.py:725-734 [_get_mux_number] *)
Definition get_mux_number (all : list signal) (d : list (string * value)) (name : string)
  : result Z :=
  let* v := sget_exn d name in
  match v with
  | VNum n => py_int n
  | VStr s | VNamed _ s =>
      let* sg := get_signal all name in
      catch (choice_to_number (s_conv sg) s) (fun e => exn_eqb e KeyError) (Err EncodeError)
  end.

(** message.py:780-807 [_encode] (the third component, the list of signals, is unused by [encode]) *)
Fixpoint encode_node (all : list signal) (c : codec) (d : list (string * value)) (scaling : bool)
  : result (Z * Z) :=
  match c with
  | Codec sigs fm muxes =>
      let* e := encode_data d sigs fm scaling in
      (fix go (ms : list (string * list (Z * codec))) (acc : Z * Z) : result (Z * Z) :=
         match ms with
         | [] => Ok acc
         | (name, bs) :: r =>
             let* m := get_mux_number all d name in
             let* sub :=
                (fix find (bs : list (Z * codec)) : result (Z * Z) :=
                   match bs with
                   | [] => Err EncodeError
                   | (i, c') :: bs' => if i =? m then encode_node all c' d scaling else find bs'
                   end) bs in
             go r (Z.lor (fst acc) (fst sub), Z.land (snd acc) (snd sub))
         end) muxes (e, f_mask fm)
  end.

(** message.py:955-991 [_decode] *)
Fixpoint decode_node (all : list signal) (nbytes : Z) (c : codec) (data : list Z)
         (decode_choices scaling allow_truncated allow_excess : bool)
  : result (list (string * value)) :=
  match c with
  | Codec sigs fm muxes =>
      let* d := decode_data data nbytes sigs fm decode_choices scaling allow_truncated allow_excess in
      (fix go (ms : list (string * list (Z * codec))) (acc : list (string * value))
         : result (list (string * value)) :=
         match ms with
         | [] => Ok acc
         | (name, bs) :: r =>
             if allow_truncated && negb (smem acc name) then go r acc
             else
               let* m := get_mux_number all acc name in
               let* sub :=
                  (fix find (bs : list (Z * codec)) : result (list (string * value)) :=
                     match bs with
                     | [] => Err DecodeError
                     | (i, c') :: bs' =>
                         if i =? m
                         then decode_node all nbytes c' data decode_choices scaling
                                          allow_truncated allow_excess
                         else find bs'
                     end) bs in
               go r (supdate acc sub)
         end) muxes d
  end.

(** message.py:524-569 [gather_signals].  [input_data.get(name)] returning None: missing. *)
Fixpoint gather_node (all : list signal) (c : codec) (d : list (string * value))
  : result (list (string * value)) :=
  match c with
  | Codec sigs fm muxes =>
      let* own :=
         foldM (fun acc s => match sget d (s_name s) with
                             | Some v => Ok (sset acc (s_name s) v)
                             | None => Err EncodeError
                             end) sigs [] in
      (fix go (ms : list (string * list (Z * codec))) (acc : list (string * value))
         : result (list (string * value)) :=
         match ms with
         | [] => Ok acc
         | (name, bs) :: r =>
             let* m := get_mux_number all d name in
             let* sub :=
                (fix find (bs : list (Z * codec)) : result (list (string * value)) :=
                   match bs with
                   | [] => Err EncodeError
                   | (i, c') :: bs' => if i =? m then gather_node all c' d else find bs'
                   end) bs in
             go r (supdate acc sub)
         end) muxes own
  end.

(** ** Strict layout check *)

Notation obit := (option string).

(** message.py:1239-1242: bytes of the reversed bit list, concatenated in reverse order *)
Fixpoint rev_chunks8 (fuel : nat) (l acc : list obit) : list obit :=
  match fuel with
  | O => acc
  | S f => match l with
           | [] => acc
           | _ => rev_chunks8 f (skipn 8 l) (firstn 8 l ++ acc)
           end
  end.

Definition nrep {A} (n : Z) (x : A) : list A := repeat x (Z.to_nat n).

(** message.py:1225-1242: the list [signal_bits] *)
Definition signal_bits (nbits : Z) (s : signal) : list obit :=
  let sb := nrep (s_length s) (Some (s_name s)) in
  if s_big s then nrep (start_bit s) None ++ sb
  else
    let bits := sb ++ nrep (s_start s) None in
    let r := if zlen bits <? nbits then nrep (nbits - zlen bits) None ++ bits else bits in
    rev_chunks8 (List.length r) r [].

(** message.py:1250-1256: mark the bits, failing on overlap *)
Fixpoint mark_bits (sig msg : list obit) : result (list obit) :=
  match sig, msg with
  | [], _ => Ok msg
  | Some n :: sr, None :: mr => let* r := mark_bits sr mr in Ok (Some n :: r)
  | Some _ :: _, Some _ :: _ => Err CantoolsError
  | None :: sr, m :: mr => let* r := mark_bits sr mr in Ok (m :: r)
  | _ :: _, [] => Err IndexError
  end.

(** message.py:1224-1256 [_check_signal] *)
Definition check_signal (bits : list obit) (s : signal) : result (list obit) :=
  let sb := signal_bits (zlen bits) s in
  if zlen bits <? zlen sb then Err CantoolsError else mark_bits sb bits.

(** message.py:1268-1271: a child's bits overwrite the message bits *)
Fixpoint merge_bits (msg child : list obit) : list obit :=
  match msg, child with
  | m :: mr, c :: cr => (match c with Some n => Some n | None => m end) :: merge_bits mr cr
  | _, _ => msg
  end.

(** message.py:1258-1279 [_check_mux] and [_check_signal_tree].  Children are visited in sorted
    order of their ids in Python; the order does not influence the result (each child starts from
    the same bits), only which error is reported. *)
Fixpoint check_tree (all : list signal) (t : stree) (bits : list obit) : result (list obit) :=
  match t with
  | STree nodes =>
      (fix go (ns : list (string * option (list (Z * stree)))) (bits : list obit)
         : result (list obit) :=
         match ns with
         | [] => Ok bits
         | (name, sub) :: r =>
             let* s := get_signal all name in
             let* b1 := check_signal bits s in
             match sub with
             | None => go r b1
             | Some children =>
                 let* b2 :=
                    (fix kids (cs : list (Z * stree)) (acc : list obit) : result (list obit) :=
                       match cs with
                       | [] => Ok acc
                       | (_, t') :: cr =>
                           let* cb := check_tree all t' b1 in
                           kids cr (merge_bits acc cb)
                       end) children b1 in
                 go r b2
             end
         end) nodes bits
  end.

(** The attributes of a Message object that matter here: message.py:64-143. *)
Record message := mkMessage {
  m_frame_id : Z;
  m_extended : bool;
  m_name : string;
  m_length : Z;
  m_unused : Z;                  (* _unused_bit_pattern *)
  m_signals : list signal;       (* after sorting *)
  m_strict : bool;
  m_codec : codec;
  m_tree : stree
}.

(** Python int.bit_length *)
Definition bit_length (z : Z) : Z := if z =? 0 then 0 else Z.log2 (Z.abs z) + 1.

(** message.py:1281-1286 [_check_signal_lengths] *)
Definition check_lengths (l : list signal) : result unit :=
  if forallb (fun s => 0 <? s_length s) l then Ok tt else Err CantoolsError.

(** message.py:1288-1311 [refresh] *)
Definition refresh (sigs : list signal) (len : Z) (strict : bool) : result (codec * stree) :=
  let* _ := check_lengths sigs in
  let* c := create_codec (S (List.length sigs)) sigs len None None in
  let t := create_signal_tree c in
  let* _ := (if strict then let* _ := check_tree sigs t (nrep (8 * len) None) in Ok tt else Ok tt) in
  Ok (c, t).

(** message.py:91-143 [__init__] *)
Definition mk_message (frame_id : Z) (extended : bool) (name : string) (len unused : Z)
           (sigs : list signal) (strict : bool) (sort : sort_arg) : result message :=
  if (if extended then 29 <? bit_length frame_id else 11 <? bit_length frame_id)
  then Err CantoolsError
  else
    let sigs' := apply_sort sort sigs in
    let* (c, t) := refresh sigs' len strict in
    Ok (mkMessage frame_id extended name len unused sigs' strict c t).

(** message.py:736-778 [_assert_signal_values_valid] for one signal.  1e-6 is its binary64 value. *)
Definition f1e6 : float := S754_finite false 4722366482869645 (-72).

Definition choices_contains (c : conversion) (raw : num) : bool :=
  match conv_choices c with
  | Some ch => match choices_lookup ch raw with Some _ => true | None => false end
  | None => false
  end.

Definition range_tolerance (c : conversion) : result num := py_mul (py_abs (conv_scale c)) (NFlt f1e6).

Definition assert_value_valid (s : signal) (v : value) (scaling : bool) : result unit :=
  match v with
  | VStr str | VNamed _ str => let* _ := choice_to_number (s_conv s) str in Ok tt
  | VNum n =>
      let* sr :=
         (if scaling then let* r := numeric_scaled_to_raw (s_conv s) n in Ok (n, r)
          else let* w := raw_to_scaled (s_conv s) n false in
               match w with VNum m => Ok (m, n) | _ => Err TypeError end) in
      let '(scaled, raw) := sr in
      if choices_contains (s_conv s) raw then Ok tt
      else
        let* _ := match s_min s with
                  | None => Ok tt
                  | Some mn =>
                      let* t := range_tolerance (s_conv s) in
                      let* lo := py_sub mn t in
                      if py_lt scaled lo then Err EncodeError else Ok tt
                  end in
        match s_max s with
        | None => Ok tt
        | Some mx =>
            let* t := range_tolerance (s_conv s) in
            let* hi := py_add mx t in
            if py_gt scaled hi then Err EncodeError else Ok tt
        end
  end.

Fixpoint assert_values_valid (all : list signal) (d : list (string * value)) (scaling : bool)
  : result unit :=
  match d with
  | [] => Ok tt
  | (name, v) :: r =>
      let* s := get_signal all name in
      let* _ := assert_value_valid s v scaling in
      assert_values_valid all r scaling
  end.

Definition same_keys {V W} (a : list (string * V)) (b : list (string * W)) : bool :=
  forallb (fun k => smem b k) (map fst a) && forallb (fun k => smem a k) (map fst b).

(** message.py:615-663 [assert_signals_encodable] with both flags True *)
Definition assert_signals_encodable (all : list signal) (c : codec) (d : list (string * value))
           (scaling : bool) : result unit :=
  let* used := gather_node all c d in
  if negb (same_keys used d) then Err EncodeError
  else assert_values_valid all used scaling.

(** [int.from_bytes([pattern] * length, 'big')]: ValueError when the pattern is no byte *)
Definition padding_pattern (unused len : Z) : result Z :=
  if (0 <=? unused) && (unused <? 256) || (len <=? 0) then Ok (from_be (nrep len unused))
  else Err ValueError.

(** message.py:885-953 [encode], ordinary messages *)
Definition encode (m : message) (d : list (string * value)) (scaling padding strict : bool)
  : result (list Z) :=
  let* _ := (if strict then assert_signals_encodable (m_signals m) (m_codec m) d scaling
             else Ok tt) in
  let* (e, mask) := encode_node (m_signals m) (m_codec m) d scaling in
  let* e' := (if padding then let* p := padding_pattern (m_unused m) (m_length m) in
                              Ok (Z.lor e (Z.land mask p))
              else Ok e) in
  to_bytes_be (Z.to_nat (m_length m)) e'.

(** message.py:1056-1135 [decode]/[decode_simple], ordinary messages *)
Definition decode (m : message) (data : list Z)
           (decode_choices scaling allow_truncated allow_excess : bool)
  : result (list (string * value)) :=
  decode_node (m_signals m) (m_length m) (m_codec m) data decode_choices scaling
              allow_truncated allow_excess.

(** message.py:524-569 *)
Definition gather_signals (m : message) (d : list (string * value)) :=
  gather_node (m_signals m) (m_codec m) d.
