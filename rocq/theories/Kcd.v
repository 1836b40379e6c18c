(** Kcd: CAN databases in KCD files (database/can/formats/kcd.py).
    The objects are those of [DbcDump].  Simplifications: an element is found by its plain tag, in the default namespace
    that the root declares; an attribute that the constructors need (the name, id or offset) but that is missing, a byte
    order other than big and little, and a reference to a node that is not defined make loading fail here, where the code
    goes on with None.  As in [DbcLoad], the checks of the constructors of Message and Signal are not repeated. *)
From Coq Require Import Ascii.
From Verif Require Import Base CSource CNames Regex DecText DbcToken DbcStmt DbcDump DbcLoad Logreader LogSpec Xml.
Local Open Scope string_scope.
Local Open Scope Z_scope.
Local Open Scope list_scope.

Definition namespace : chars := txt "http://kayak.2codeornot2code.org/1.0".
(** kcd.py:32-36 (_start_bit) *)
Definition flip (offset : Z) (big : bool) : Z := if big then 8 * (offset / 8) + (7 - offset mod 8) else offset.

(** ** Elements *)
Definition elem (tag : string) (a : list (chars * chars)) (k : list xml) : xml := Elem (txt tag) a [] (map (fun e => (e, [])) k).
Definition at_ (n : string) (v : chars) : list (chars * chars) := [(txt n, v)].
Definition at_if (b : bool) (n : string) (v : chars) : list (chars * chars) := if b then at_ n v else [].
Definition at_opt {A} (n : string) (o : option A) (f : A -> chars) : list (chars * chars) := match o with Some x => at_ n (f x) | None => [] end.
Definition attr (e : xml) (n : string) : option chars := cget (x_attrs e) (txt n).
Definition attr_exn (e : xml) (n : string) : result chars := match attr e n with Some v => Ok v | None => Err KeyError end.
(** [attr] is element.attrib.get, [attr_exn] element.attrib[...]; element.iterfind('ns:tag') and element.find('ns:tag') *)
Definition has_tag (t : string) (e : xml) : bool := chars_eqb (x_tag e) (txt t).
Definition iterfind (e : xml) (t : string) : list xml := filter (has_tag t) (x_kids e).
Definition find (e : xml) (t : string) : option xml := match iterfind e t with x :: _ => Some x | [] => None end.

Section Kcd.
Context {FL : Floats}.

Definition num_is (n : num) (z : Z) : bool := match n with DInt x => x =? z | DFloat f => f_is_int f z end.

(** ** Writing *)
Definition node_refs := list (chars * Z).
Definition node_ref (refs : node_refs) (n : chars) : result xml :=
  match cget refs n with Some i => Ok (elem "NodeRef" (at_ "id" (decimal i)) []) | None => Err KeyError end.
(** kcd.py:267-269 *)
Definition notes (c : option chars) : list xml := match c with Some t => [Elem (txt "Notes") [] t []] | None => [] end.
(** The element is left out if it has no references (kcd.py:290-297, 389-396). *)
Definition refs_element (tag : string) (refs : node_refs) (l : list chars) : result (list xml) :=
  match l with [] => Ok [] | _ => let* k := mapM (node_ref refs) l in Ok [elem tag [] k] end.
(** kcd.py:299-331 *)
Definition value_attrs (s : dsignal) : list (chars * chars) :=
  at_opt "min" (s_min s) num_text ++ at_opt "max" (s_max s) num_text ++
  at_if (negb (num_is (s_scale s) 1)) "slope" (num_text (s_scale s)) ++
  at_if (negb (num_is (s_offset s) 0)) "intercept" (num_text (s_offset s)) ++
  at_opt "unit" (s_unit s) (fun u => u) ++
  (if s_float s then at_ "type" (txt (if s_length s =? 32 then "single" else "double"))
   else if s_signed s then at_ "type" (txt "signed") else []).
Definition value_element (s : dsignal) : list xml := match value_attrs s with [] => [] | a => [elem "Value" a []] end.
Definition label (p : Z * chars) : xml := elem "Label" (at_ "name" (snd p) ++ at_ "value" (decimal (fst p))) [].
Definition label_set (s : dsignal) : list xml :=
  match s_choices s with None | Some [] => [] | Some l => [elem "LabelSet" [] (map label l)] end.
(** kcd.py:272-338: the attributes and children of the element of a signal *)
Definition signal_attrs (s : dsignal) : list (chars * chars) :=
  at_ "name" (s_name s) ++ at_ "offset" (decimal (flip (s_start s) (s_big s))) ++
  at_if (negb (s_length s =? 1)) "length" (decimal (s_length s)) ++ at_if (s_big s) "endianess" (txt "big").
Definition signal_kids (refs : node_refs) (s : dsignal) : result (list xml) :=
  let* c := refs_element "Consumer" refs (s_receivers s) in
  Ok (notes (s_comment s) ++ c ++ value_element s ++ label_set s).
Definition signal_element (refs : node_refs) (s : dsignal) : result xml :=
  let* k := signal_kids refs s in Ok (elem "Signal" (signal_attrs s) k).

(** kcd.py:341-368 *)
Definition mux_group (refs : node_refs) (p : Z * list dsignal) : result xml :=
  let* k := mapM (signal_element refs) (snd p) in Ok (elem "MuxGroup" (at_ "count" (decimal (fst p))) k).
Definition first_id (s : dsignal) : result Z :=
  match s_mux_ids s with None => Err TypeError | Some [] => Err IndexError | Some (i :: _) => Ok i end.
Definition multiplexed_by (n : chars) (s : dsignal) : bool := match s_mux_signal s with Some x => chars_eqb x n | None => false end.
Definition put_count (d : list (Z * list dsignal)) (p : Z * dsignal) : list (Z * list dsignal) :=
  zset d (fst p) (match zget d (fst p) with Some l => l | None => [] end ++ [snd p]).
Definition by_count (l : list (Z * dsignal)) : list (Z * list dsignal) := fold_left put_count l [].
Definition counts (n : chars) (l : list dsignal) : result (list (Z * list dsignal)) :=
  let* p := mapM (fun s => let* i := first_id s in Ok (i, s)) (filter (multiplexed_by n) l) in Ok (by_count p).
Definition multiplex_element (refs : node_refs) (l : list dsignal) (s : dsignal) : result xml :=
  let* k := signal_kids refs s in
  let* c := counts (s_name s) l in
  let* g := mapM (mux_group refs) c in
  Ok (elem "Multiplex" (signal_attrs s) (k ++ g)).

(** f'0x{id:03X}' for an id that is not negative *)
Definition id_text (id : Z) : chars := txt "0x" ++ hex_fixed (Nat.max 3 (Z.to_nat (Z.log2 id / 4 + 1))) id.
(** kcd.py:371-417 *)
Definition message_attrs (m : dmessage) : list (chars * chars) :=
  at_ "id" (id_text (m_id m)) ++ at_ "name" (m_name m) ++ at_ "length" (decimal (m_length m)) ++
  at_opt "interval" (m_cycle_time m) aval_text ++ at_if (m_extended m) "format" (txt "extended").
Definition message_signal (refs : node_refs) (l : list dsignal) (s : dsignal) : result (list xml) :=
  if s_is_mux s then let* e := multiplex_element refs l s in Ok [e]
  else match s_mux_ids s with None => let* e := signal_element refs s in Ok [e] | Some _ => Ok [] end.
Definition message_element (srt : list dsignal -> list dsignal) (refs : node_refs) (m : dmessage) : result xml :=
  let* p := refs_element "Producer" refs (m_senders m) in
  let l := srt (m_signals m) in
  let* k := mapM (message_signal refs l) l in
  Ok (elem "Message" (message_attrs m) (notes (m_comment m) ++ p ++ List.concat k)).

(** kcd.py:425-428: the nodes are numbered from one. *)
Fixpoint number (i : Z) (l : list node) : node_refs := match l with [] => [] | n :: r => (n_name n, i) :: number (i + 1) r end.
Definition node_element (p : chars * Z) : xml := elem "Node" (at_ "id" (decimal (snd p)) ++ at_ "name" (fst p)) [].
(** kcd.py:420-422, 431-463.  [srt] is the order of the signals; by default they are left as they are. *)
Definition root_attrs : list (chars * chars) :=
  at_ "xmlns:xsi" (txt "http://www.w3.org/2001/XMLSchema-instance") ++ at_ "xmlns" namespace ++ at_ "xsi:noNamespaceSchemaLocation" (txt "Definition.xsd").
Definition the_version (v : option chars) : chars := match v with Some t => t | None => [] end.
Definition network (srt : list dsignal -> list dsignal) (db : database) : result xml :=
  let refs := number 1 (db_nodes db) in
  let* ms := mapM (message_element srt (dupdate chars_eqb [] refs)) (db_messages db) in
  Ok (elem "NetworkDefinition" root_attrs
        (elem "Document" (at_ "version" (the_version (db_version db))) [] :: map node_element refs ++ [elem "Bus" (at_ "name" (txt "Bus")) ms])).

(** kcd.py:248-264: texts and tails that are blank are replaced. *)
Definition indentation (level : nat) : chars := lf :: List.concat (repeat (txt "  ") level).
Definition fill (t new : chars) : chars := if forallb is_blank t then new else t.
Fixpoint indent (level : nat) (e : xml) : xml :=
  match e with
  | Elem t a x k =>
      Elem t a (match k with [] => x | _ => fill x (indentation (S level)) end)
        ((fix go (l : list (xml * chars)) : list (xml * chars) :=
            match l with
            | [] => []
            | [(c, tl)] => [(indent (S level) c, fill tl (indentation level))]
            | (c, tl) :: r => (indent (S level) c, fill tl (indentation (S level))) :: go r
            end) k)
  end.
(** The root has children, so that its tail is a line end. *)
Definition dump_string (srt : list dsignal -> list dsignal) (db : database) : result chars :=
  let* e := network srt db in Ok (write (indent 0 e) ++ flat_map esc_text (indentation 0)).

(** ** Reading *)
(** What load_string returns: the names of the nodes, the buses with their rates, and the messages with the names of their buses *)
Record kcd := Kcd { k_version : option chars; k_nodes : list chars; k_buses : list (chars * Z); k_messages : list (chars * dmessage) }.

Definition opt_map {A B} (f : A -> result B) (o : option A) : result (option B) :=
  match o with Some x => let* y := f x in Ok (Some y) | None => Ok None end.
Definition default {A} (d : A) (o : option A) : A := match o with Some x => x | None => d end.
(** int(text, 0): decimal and hexadecimal *)
Definition int_any (t : chars) : result Z :=
  match (match after (txt "0x") t with Some d => Some d | None => after (txt "0X") t end) with
  | Some d => match d with [] => Err ValueError | _ => if forallb hex_any d then Ok (hex_int d) else Err ValueError end
  | None => int0_of t
  end.
(** kcd.py:39-42 *)
Fixpoint node_name (nodes : list (chars * chars)) (id : chars) : result chars :=
  match nodes with [] => Err KeyError | (i, n) :: r => if chars_eqb i id then Ok n else node_name r id end.
Definition load_refs (nodes : list (chars * chars)) (e : xml) (tag : string) : result (list chars) :=
  match find e tag with
  | Some c => mapM (fun r => let* i := attr_exn r "id" in node_name nodes i) (iterfind c "NodeRef")
  | None => Ok []
  end.
(** The text of an element without text is None. *)
Definition load_notes (e : xml) : option chars :=
  match find e "Notes" with Some n => match x_text n with [] => None | t => Some t end | None => None end.
Definition load_labels (e : xml) : result (option (list (Z * chars))) :=
  match find e "LabelSet" with
  | Some l =>
      let* p := mapM (fun x => let* v := attr_exn x "value" in let* z := int_of v in let* n := attr_exn x "name" in Ok (z, n)) (iterfind l "Label") in
      Ok (Some (dupdate Z.eqb [] p))
  | None => Ok None
  end.
Definition load_order (o : option chars) : result bool :=
  match o with
  | None => Ok false
  | Some v => if chars_eqb v (txt "big") then Ok true else if chars_eqb v (txt "little") then Ok false else Err ValueError
  end.
(** kcd.py:45-146 *)
Definition load_signal (nodes : list (chars * chars)) (e : xml) : result dsignal :=
  let* name := attr_exn e "name" in
  let* off := attr_exn e "offset" in
  let* offset := int_of off in
  let* length := opt_map int_of (attr e "length") in
  let* big := load_order (attr e "endianess") in
  let value := match find e "Value" with Some v => attr v | None => fun _ => None end in
  let* mn := opt_map read_num (value "min") in
  let* mx := opt_map read_num (value "max") in
  let* slope := opt_map read_num (value "slope") in
  let* intercept := opt_map read_num (value "intercept") in
  let type := default [] (value "type") in
  let* labels := load_labels e in
  let* receivers := load_refs nodes e "Consumer" in
  Ok (DSignal name (flip offset big) (default 1 length) big (chars_eqb type (txt "signed")) None (default (DInt 1) slope) (default (DInt 0) intercept)
        (chars_eqb type (txt "single") || chars_eqb type (txt "double")) labels mn mx (value "unit") (load_notes e) receivers
        false None None None []).
Definition as_mux (s : dsignal) : dsignal :=
  DSignal (s_name s) (s_start s) (s_length s) (s_big s) (s_signed s) (s_initial s) (s_scale s) (s_offset s) (s_float s) (s_choices s) (s_min s)
    (s_max s) (s_unit s) (s_comment s) (s_receivers s) true (s_mux_ids s) (s_mux_signal s) (s_spn s) (s_attrs s).
Definition as_muxed (i : Z) (n : chars) (s : dsignal) : dsignal :=
  DSignal (s_name s) (s_start s) (s_length s) (s_big s) (s_signed s) (s_initial s) (s_scale s) (s_offset s) (s_float s) (s_choices s) (s_min s)
    (s_max s) (s_unit s) (s_comment s) (s_receivers s) (s_is_mux s) (Some [i]) (Some n) (s_spn s) (s_attrs s).
(** kcd.py:149-167.  An empty group leaves its count unread. *)
Definition load_group (nodes : list (chars * chars)) (n : chars) (e : xml) : result (list dsignal) :=
  let* c := attr_exn e "count" in
  mapM (fun x => let* s := load_signal nodes x in let* i := int_of c in Ok (as_muxed i n s)) (iterfind e "Signal").
Definition load_multiplex (nodes : list (chars * chars)) (e : xml) : result (list dsignal) :=
  let* s := load_signal nodes e in
  let* g := mapM (load_group nodes (s_name s)) (iterfind e "MuxGroup") in
  Ok (as_mux s :: List.concat g).
(** kcd.py:223-231 *)
Definition auto_length (l : list dsignal) : Z :=
  match l with
  | [] => 0
  | s :: r => (fold_left (fun a s => Z.max a (start_bit s + s_length s)) r (start_bit s + s_length s) + 7) / 8
  end.
Definition load_length (o : option chars) (l : list dsignal) : result Z :=
  match o with
  | None => Ok (auto_length l)
  | Some t => if chars_eqb t (txt "auto") then Ok (auto_length l) else int_of t
  end.
(** kcd.py:170-245.  [srt] is the order that the constructor of Message gives the signals. *)
Definition load_message (srt : list dsignal -> list dsignal) (nodes : list (chars * chars)) (e : xml) : result dmessage :=
  let* name := attr_exn e "name" in
  let* id := attr_exn e "id" in
  let* frame_id := int_any id in
  let* interval := opt_map int_of (attr e "interval") in
  let* senders := load_refs nodes e "Producer" in
  let* muxes := mapM (load_multiplex nodes) (iterfind e "Multiplex") in
  let* plain := mapM (load_signal nodes) (iterfind e "Signal") in
  let signals := List.concat muxes ++ plain in
  let* length := load_length (attr e "length") signals in
  Ok (DMessage frame_id (chars_eqb (default [] (attr e "format")) (txt "extended")) name length senders None (option_map AInt interval)
        (load_notes e) (srt signals) false false None []).
(** kcd.py:487-497 *)
Definition load_bus (srt : list dsignal -> list dsignal) (nodes : list (chars * chars)) (e : xml) : result (chars * Z * list (chars * dmessage)) :=
  let* n := attr_exn e "name" in
  let* b := opt_map int_of (attr e "baudrate") in
  let* ms := mapM (load_message srt nodes) (iterfind e "Message") in
  Ok (n, default 500000 b, map (fun m => (n, m)) ms).
(** kcd.py:466-505 *)
Definition load_string (srt : list dsignal -> list dsignal) (t : chars) : result kcd :=
  match read t with
  | None => Err ParseError
  | Some e =>
      if negb (has_tag "NetworkDefinition" e && option_eqb chars_eqb (attr e "xmlns") (Some namespace)) then Err ValueError
      else
        let* nodes := mapM (fun x => let* i := attr_exn x "id" in let* n := attr_exn x "name" in Ok (i, n)) (iterfind e "Node") in
        let version := match find e "Document" with Some d => attr d "version" | None => None end in
        let* buses := mapM (load_bus srt nodes) (iterfind e "Bus") in
        Ok (Kcd version (map snd nodes) (map fst buses) (flat_map snd buses))
  end.
End Kcd.
