(** CNode: model of src/cantools/database/can/c_source.py: which macros, structures, functions and helpers the generated
    header and source have, for all nodes or for one node, with the types of the functions.

    The bodies of the functions are in [CSource], [CNames] and [CFloat].  Comments and the layout of the text are left out.
    An error of the generator (a number that cannot be rounded, a name that is not found) is not modelled here. *)
From Coq Require Import Ascii.
From Verif Require Import Base PyNum Conversion Signal Message CodecSpec CSource CNames.
Local Open Scope string_scope.
Local Open Scope Z_scope.
Local Open Scope list_scope.

(** A message with the names of its senders, and of the receivers of each signal *)
Record gmessage := mkGMessage {
  g_name : string; g_id : Z; g_extended : bool; g_length : Z; g_cycle : option Z; g_senders : list string;
  g_signals : list (signal * list string); g_tree : stree }.

(** ** Nodes *)
Definition str_in (x : string) (l : list string) : bool := existsb (String.eqb x) l.
(** c_source.py:1467-1468 [_is_sender] *)
Definition sends (node : option string) (m : gmessage) : bool := match node with None => true | Some n => str_in n (g_senders m) end.
(** 1471-1472 [_is_receiver] *)
Definition receives (node : option string) (s : signal * list string) : bool := match node with None => true | Some n => str_in n (snd s) end.
(** 1475-1478 [_is_sender_or_receiver] *)
Definition involved (node : option string) (m : gmessage) : bool := sends node m || existsb (receives node) (g_signals m).

(** ** Names and types *)
Definition up (s : string) : string := string_of_list_ascii (upper (list_ascii_of_string s)).
Definition snaked (m : gmessage) : string := snake (g_name m).
(** 636-645 *)
Definition type_digits (s : signal) : string := if s_length s <=? 8 then "8" else if s_length s <=? 16 then "16" else if s_length s <=? 32 then "32" else "64".
(** 647-660 [type_name] *)
Definition type_name (s : signal) : string :=
  if is_float s then (if s_length s =? 32 then "float" else "double")
  else ((if s_signed s then "" else "u") ++ "int" ++ type_digits s ++ "_t")%string.
(** 1481-1482 *)
Definition float_type (use_float : bool) : string := if use_float then "float" else "double".
(** 1575-1582 *)
Definition own_float (use_float : bool) (s : signal) : bool := if use_float && String.eqb (type_name s) "double" then false else use_float.
Record proto := mkProto { p_result : string; p_name : string; p_params : list string }.

Section Generate.
  Context (database : string) (floating bit_fields use_float : bool) (node : option string).
  Definition prefix (m : gmessage) : string := (database ++ "_" ++ snaked m)%string.
  Definition struct_tag (m : gmessage) : string := (prefix m ++ "_t")%string.
  Definition of_signal (m : gmessage) (s : signal) (what : string) : string := (prefix m ++ "_" ++ member s ++ "_" ++ what)%string.
  (** 362-394, 447-456 and 509-543, 458-467, 578-602 *)
  Definition pack_proto (m : gmessage) : proto := mkProto "int" (prefix m ++ "_pack") ["uint8_t *"; ("const struct " ++ struct_tag m ++ " *")%string; "size_t"].
  Definition unpack_proto (m : gmessage) : proto := mkProto "int" (prefix m ++ "_unpack") [("struct " ++ struct_tag m ++ " *")%string; "const uint8_t *"; "size_t"].
  Definition init_proto (m : gmessage) : proto := mkProto "int" (prefix m ++ "_init") [("struct " ++ struct_tag m ++ " *")%string].
  (** 396-445 and 545-576 *)
  Definition encode_proto (m : gmessage) (s : signal) (f : string) : proto := mkProto (type_name s) (of_signal m s "encode") [f].
  Definition decode_proto (m : gmessage) (s : signal) (f : string) : proto := mkProto f (of_signal m s "decode") [type_name s].
  Definition range_proto (m : gmessage) (s : signal) : proto := mkProto "bool" (of_signal m s "is_in_range") [type_name s].
  Definition phys_proto (m : gmessage) (s : signal) (f : string) : proto := mkProto "bool" (of_signal m s "is_in_phys_range") [f].

  (** ** Declarations: 1485-1554 *)
  Definition declare_signal (m : gmessage) (s : signal * list string) : list proto :=
    let own := (if floating then
                  (if sends node m then [encode_proto m (fst s) (float_type use_float)] else []) ++
                  (if match node with None => true | Some _ => false end || receives node s then [decode_proto m (fst s) (float_type use_float)] else [])
                else []) in
    if sends node m || receives node s then own ++ [range_proto m (fst s); phys_proto m (fst s) (float_type use_float)] else [].
  Definition is_receiver (m : gmessage) : bool := match node with None => true | Some _ => false end || existsb (receives node) (g_signals m).
  Definition declare (m : gmessage) : list proto :=
    (if sends node m then [pack_proto m] else []) ++ (if is_receiver m then [unpack_proto m] else []) ++
    (if sends node m || is_receiver m then [init_proto m] else []) ++ flat_map (declare_signal m) (g_signals m).
  (** ** Definitions: 1557-1692 *)
  Definition define_signal (m : gmessage) (s : signal * list string) : list proto :=
    let f := float_type (own_float use_float (fst s)) in
    let own := (if floating then
                  (if sends node m then [encode_proto m (fst s) f] else []) ++
                  (if match node with None => true | Some _ => false end || receives node s then [decode_proto m (fst s) f] else [])
                else []) in
    if sends node m || receives node s then own ++ [range_proto m (fst s); phys_proto m (fst s) f] else [].
  Definition define (m : gmessage) : list proto :=
    (if 0 <? g_length m then
       (if sends node m then [pack_proto m] else []) ++ (if is_receiver m then [unpack_proto m] else []) ++
       (if sends node m || is_receiver m then [init_proto m] else [])
     else [pack_proto m; unpack_proto m]) ++
    flat_map (define_signal m) (g_signals m).
  (** ** Structures: 908-927, 1206-1225, 1448-1464; members with type, name and width *)
  Definition member_of (s : signal) : string * string * option Z :=
    (type_name s, member s, if is_float s || negb bit_fields then None else Some (s_length s)).
  Definition struct_of (m : gmessage) : string * list (string * string * option Z) :=
    (struct_tag m, match map (fun s => member_of (fst s)) (g_signals m) with [] => [("uint8_t", "dummy", None)] | l => l end).
  Definition structs (ms : list gmessage) : list (string * list (string * string * option Z)) := map struct_of (filter (involved node) ms).
  (** ** Macros: 1360-1445; a number or a text in quotation marks *)
  Inductive macro := MNum (z : Z) | MText (s : string).
  Definition macro_name (m : gmessage) (what : string) : string := (up database ++ "_" ++ up (snaked m) ++ "_" ++ what)%string.
  Definition for_messages (f : gmessage -> list (string * macro)) (ms : list gmessage) : list (string * macro) := flat_map f (filter (involved node) ms).
  Definition choice_lines (m : gmessage) : list (string * macro) :=
    flat_map (fun s => match conv_choices (s_conv (fst s)) with
                       | None => []
                       | Some ch => if sends node m || receives node s
                                    then map (fun vn => (macro_name m (up (member (fst s)) ++ "_" ++ string_of_list_ascii (snd vn) ++ "_CHOICE"), MNum (fst vn)))
                                           (sorted_py (fun a b => fst a <=? fst b) (unique_choices ch))
                                    else []
                       end) (g_signals m).
  Definition macros (ms : list gmessage) : list (string * macro) :=
    for_messages (fun m => [(macro_name m "FRAME_ID", MNum (g_id m))]) ms ++
    for_messages (fun m => [(macro_name m "LENGTH", MNum (g_length m))]) ms ++
    for_messages (fun m => [(macro_name m "IS_EXTENDED", MNum (if g_extended m then 1 else 0))]) ms ++
    for_messages (fun m => match g_cycle m with Some c => [(macro_name m "CYCLE_TIME_MS", MNum c)] | None => [] end) ms ++
    flat_map choice_lines ms ++
    for_messages (fun m => [(macro_name m "NAME", MText (g_name m))]) ms ++
    for_messages (fun m => map (fun s => (macro_name m (up (member (fst s)) ++ "_NAME"), MText (s_name (fst s)))) (g_signals m)) ms.

  (** ** Helpers: the kinds that 971-1002 and 1093-1138 collect *)
  Definition kind := (dir * Z)%type.
  Definition signal_kinds (invert : bool) (s : signal) : list kind := map (fun g => let '(_, _, d, _) := g in (d, type_length s)) (segments s invert).
  Definition kinds_of (invert : bool) (all : list signal) (n : string) : list kind := match find_signal all n with Some s => signal_kinds invert s | None => [] end.
  Fixpoint pack_kinds (all : list signal) (t : stree) : list kind :=
    match t with
    | STree nodes =>
        (fix go (ns : list (string * option (list (Z * stree)))) : list kind :=
           match ns with
           | [] => []
           | (n, None) :: r => kinds_of false all n ++ go r
           | (n, Some cs) :: r =>
               kinds_of false all n ++
               ((fix kids (cs : list (Z * stree)) : list kind := match cs with [] => [] | (_, t') :: cr => pack_kinds all t' ++ kids cr end) cs) ++ go r
           end) nodes
    end.
  Fixpoint unpack_kinds (all : list signal) (recv : string -> bool) (t : stree) : list kind :=
    match t with
    | STree nodes =>
        (fix go (ns : list (string * option (list (Z * stree)))) : list kind :=
           match ns with
           | [] => []
           | (n, None) :: r => (if recv n then kinds_of true all n else []) ++ go r
           | (n, Some cs) :: r =>
               kinds_of true all n ++
               ((fix kids (cs : list (Z * stree)) : list kind := match cs with [] => [] | (_, t') :: cr => unpack_kinds all recv t' ++ kids cr end) cs) ++ go r
           end) nodes
    end.
  Definition all_signals (m : gmessage) : list signal := map fst (g_signals m).
  (** 1167 with 832-836 *)
  Definition recv_name (m : gmessage) (n : string) : bool :=
    match find (fun s => String.eqb (s_name (fst s)) n) (g_signals m) with Some s => receives node s | None => false end.
  (** 1695-1713 [_generate_helpers_kind]: sorted(kinds) *)
  Definition every_kind : list kind := [(Left, 8); (Left, 16); (Left, 32); (Left, 64); (Right, 8); (Right, 16); (Right, 32); (Right, 64)].
  Definition kind_eqb (a b : kind) : bool := match fst a, fst b with Left, Left | Right, Right => true | _, _ => false end && (snd a =? snd b).
  Definition sorted_kinds (l : list kind) : list kind := filter (fun k => existsb (kind_eqb k) l) every_kind.
  Definition pack_helpers (ms : list gmessage) : list kind :=
    sorted_kinds (flat_map (fun m => if 0 <? g_length m then pack_kinds (all_signals m) (g_tree m) else []) ms).
  Definition unpack_helpers (ms : list gmessage) : list kind :=
    sorted_kinds (flat_map (fun m => if 0 <? g_length m then unpack_kinds (all_signals m) (recv_name m) (g_tree m) else []) ms).

  (** ** The files: 1762-1870 *)
  Record cheader := mkHeader { h_macros : list (string * macro); h_structs : list (string * list (string * string * option Z)); h_functions : list proto }.
  Record csource := mkSource { c_pack_helpers : list kind; c_unpack_helpers : list kind; c_functions : list proto }.
  (** 1733-1759: a test for every message: the structure and the functions it uses *)
  Definition fuzzer (ms : list gmessage) : list (string * list string) :=
    map (fun m => ((database ++ "_" ++ snake (g_name m) ++ "_t")%string,
                   [(database ++ "_" ++ snake (g_name m) ++ "_unpack")%string; (database ++ "_" ++ snake (g_name m) ++ "_pack")%string])) ms.
  Definition generate (ms : list gmessage) : cheader * csource * list (string * list string) :=
    (mkHeader (macros ms) (structs ms) (flat_map declare ms), mkSource (pack_helpers ms) (unpack_helpers ms) (flat_map define ms), fuzzer ms).
End Generate.
