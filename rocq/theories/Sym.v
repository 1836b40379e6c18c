(** Sym: CAN databases in SYM files (database/can/formats/sym.py:268-1010).
    The objects are those of [DbcDump].  Simplifications: the signals of a message have different names, so that a signal
    is not looked up by its name when a message is written; the numbers of a row of the signals are given to the signals
    of the messages as they are, without the conversion object in between; an enumeration with a value that is not an
    integer makes loading fail.  As in [DbcLoad], the checks of the constructors of Message and Signal are not repeated,
    and the order of the elements of a set is left open. *)
From Coq Require Import Ascii.
From Verif Require Import Base CSource CNames Regex DecText DbcToken DbcStmt DbcDump DbcLoad Logreader LogSpec Kcd Draw SymToken SymStmt.
Local Open Scope string_scope.
Local Open Scope Z_scope.
Local Open Scope list_scope.
Notation txt := DbcToken.txt.

Section Sym.
Context {FL : Floats}.

(** ** Writing *)
(** sym.py:772-780 *)
Definition signal_name (s : dsignal) : chars := firstn 32 (s_name s).
Definition enum_char (c : ascii) : ascii := if Ascii.eqb c " " || Ascii.eqb c "/" then "_"%char else c.
Definition enum_name (s : dsignal) : chars := firstn 31 (map enum_char (signal_name s)) ++ ["E"%char].
Definition choices_of (s : dsignal) : list (Z * chars) := default [] (s_choices s).
(** sym.py:782-813 *)
Definition enum_of (s : dsignal) : list enum_row :=
  match choices_of s with [] => [] | l => [EnumRow (enum_name s) (map (fun p => (decimal (fst p), snd p)) l)] end.
(** The first signal of every name *)
Fixpoint unique (seen : list chars) (l : list dsignal) : list dsignal :=
  match l with
  | [] => []
  | s :: r => if existsb (chars_eqb (s_name s)) seen then unique seen r else s :: unique (s_name s :: seen) r
  end.
Definition dump_enums (db : database) : list enum_row := flat_map enum_of (unique [] (flat_map m_signals (db_messages db))).
(** sym.py:815-827 *)
Definition opt_is (o : option num) (z : Z) : bool := match o with Some n => num_is n z | None => false end.
Definition signal_type (s : dsignal) : string :=
  if s_float s then (if s_length s =? 64 then "double" else "float")
  else if s_signed s then "signed"
  else if (s_length s =? 1) && opt_is (s_min s) 0 && opt_is (s_max s) 1 then "bit" else "unsigned".
(** The truth value of a number or text *)
Definition aval_true (v : aval) : bool :=
  match v with AInt z => negb (z =? 0) | AFloat f => negb (f_is_int f 0) | AStr t => negb (chars_eqb t []) end.
Definition row_comment (c : chars) : chars := comment_token (" "%char :: c).
(** sym.py:829-852 *)
Definition signal_attrs (s : dsignal) : list sattr :=
  match s_unit s with None | Some [] => [] | Some u => [AUnit (unit_token u)] end ++
  (if num_is (s_scale s) 1 then [] else [AKey "/f:" (num_text (s_scale s))]) ++
  (if num_is (s_offset s) 0 then [] else [AKey "/o:" (num_text (s_offset s))]) ++
  match s_max s with Some n => [AKey "/max:" (num_text n)] | None => [] end ++
  match s_min s with Some n => [AKey "/min:" (num_text n)] | None => [] end ++
  match s_spn s with Some v => if aval_true v then [AKey "/spn:" (aval_text v)] else [] | None => [] end ++
  match choices_of s with [] => [] | _ => [AKey "/e:" (enum_name s)] end.
Definition signal_row (s : dsignal) : sig_row :=
  SigRow (signal_name s) (txt (signal_type s)) (Some (decimal (s_length s))) (s_big s) (signal_attrs s)
    (match s_comment s with None | Some [] => None | Some c => Some (row_comment c) end).
(** sym.py:854-871.  [srt] is the order of the signals. *)
Definition dump_signals (srt : list dsignal -> list dsignal) (db : database) : list sig_row :=
  map signal_row (unique [] (flat_map (fun m => srt (m_signals m)) (db_messages db))).

(** format(z, f'0{w}X') *)
Definition hex_digits (z : Z) : nat := Z.to_nat (Z.log2 z / 4 + 1).
Definition hex_pad (w : nat) (z : Z) : chars :=
  if z <? 0 then "-"%char :: hex_fixed (Nat.max (w - 1) (hex_digits (- z))) (- z) else hex_fixed (Nat.max w (hex_digits z)) z.
Definition h_text (t : chars) : chars := t ++ ["h"%char].
Definition id_token (m : dmessage) (i : Z) : chars := h_text (hex_pad (if m_extended m then 8 else 3) i).
(** sym.py:873-916 *)
Definition id_entries (m : dmessage) (mn mx : option Z) : list entry :=
  match mn with
  | Some i => [EId (id_token m i) (option_map (fun j => "-"%char :: id_token m j) mx) (option_map row_comment (m_comment m))]
  | None => match mx with Some j => [EStray ("-"%char :: id_token m j)] | None => [] end
  end.
Definition mux_entry (i : Z) (s : dsignal) : result entry :=
  match s_name s with
  | [] => Err ValueError
  | n => Ok (EMux n (decimal (flip (s_start s) (s_big s))) (decimal (s_length s)) (h_text (hex_pad 1 i)) (if s_big s then ["-m"] else []) None)
  end.
Definition sig_entry (s : dsignal) : entry := ESig (signal_name s) (decimal (flip (s_start s) (s_big s))).
Definition dump_message (m : dmessage) (signals : list dsignal) (mn mx : option Z) (mux : option (Z * dsignal)) : result symbol :=
  let* e := match mux with Some (i, s) => let* e := mux_entry i s in Ok [e] | None => Ok [] end in
  Ok (Symbol (m_name m)
        (id_entries m mn mx ++ (if m_extended m then [EType (txt "Extended")] else []) ++ ELen (decimal (m_length m)) ::
         match m_cycle_time m with Some v => if aval_true v then [ECycle (aval_text v) false] else [] | None => [] end ++ e ++ map sig_entry signals)).

Section Tree.
Context (set_list : list Z -> list Z).
(** can/message.py:160-195: the ids of the signals that a multiplexer selects; a multiplexer without any is not in the tree of
    multiplexers. *)
Definition ids_of (s : dsignal) : list Z := default [] (s_mux_ids s).
Definition child_ids (all : list dsignal) (s : dsignal) : list Z :=
  set_list (flat_map ids_of (filter (multiplexed_by (s_name s)) all) ++ map fst (choices_of s)).
Definition selects (all : list dsignal) (s : dsignal) : bool := s_is_mux s && match child_ids all s with [] => false | _ => true end.
Definition is_root (s : dsignal) : bool := match s_mux_signal s with None => true | Some _ => false end.
Definition has_id (i : Z) (s : dsignal) : bool := existsb (Z.eqb i) (ids_of s).
Definition selected (all : list dsignal) (n : chars) (i : Z) : list dsignal := filter (fun s => multiplexed_by n s && has_id i s) all.
(** sym.py:942-958.  A multiplexer among the signals of an id is a dictionary in the tree, which is not a name. *)
Fixpoint mux_symbols (m : dmessage) (mn mx : option Z) (s : dsignal) (plain : list dsignal) (ids : list Z) : result (list symbol) :=
  match ids with
  | [] => Ok []
  | i :: r =>
      let kids := selected (m_signals m) (s_name s) i in
      if existsb (selects (m_signals m)) kids then Err TypeError
      else let* x := dump_message m (kids ++ plain) mn mx (Some (i, s)) in let* l := mux_symbols m None mx s plain r in Ok (x :: l)
  end.
Definition message_symbols (m : dmessage) (mx : option Z) : result (list symbol) :=
  let all := m_signals m in
  let roots := filter is_root all in
  if existsb (selects all) roots then
    let* l := mapM (fun s => mux_symbols m (Some (m_id m)) mx s (filter (fun x => negb (selects all x)) roots) (child_ids all s)) (filter (selects all) roots) in
    Ok (List.concat l)
  else let* x := dump_message m all (Some (m_id m)) mx None in Ok [x].

(** sym.py:924: sorted and grouped by name *)
Definition by_name (a b : dmessage) : bool := chars_leb (m_name a) (m_name b).
Fixpoint groups (l : list dmessage) : list (list dmessage) :=
  match l with
  | [] => []
  | m :: r =>
      match groups r with
      | (x :: g) :: gs => if chars_eqb (m_name m) (m_name x) then (m :: x :: g) :: gs else [m] :: (x :: g) :: gs
      | gs => [m] :: gs
      end
  end.
Definition least (m : dmessage) (l : list dmessage) : dmessage := fold_left (fun a x => if m_id x <? m_id a then x else a) l m.
Definition greatest_id (m : dmessage) (l : list dmessage) : Z := fold_left (fun a x => Z.max a (m_id x)) l (m_id m).
(** sym.py:925-965: the section and the symbols of the messages of one name *)
Definition section_of (m : dmessage) : string :=
  match m_senders m with
  | [n] => if chars_eqb n (txt "ECU") then "{SEND}" else if chars_eqb n (txt "Peripherals") then "{RECEIVE}" else "{SENDRECEIVE}"
  | _ => "{SENDRECEIVE}"
  end.
Definition group_symbols (g : list dmessage) : result (string * list symbol) :=
  match g with
  | [] => Ok ("", [])
  | [m] => let* l := message_symbols m None in Ok (section_of m, l)
  | m :: r =>
      let a := least m r in let mx := greatest_id m r in
      if mx - m_id a + 1 =? zlen g then let* l := message_symbols a (Some mx) in Ok (section_of a, l) else Err ValueError
  end.
Definition of_section (k : string) (l : list (string * list symbol)) : list symbol := flat_map snd (filter (fun p => String.eqb (fst p) k) l).
Definition dump_rows (srt : list dsignal -> list dsignal) (db : database) : result sym_rows :=
  let* l := mapM group_symbols (groups (sorted_py by_name (db_messages db))) in
  Ok (SymRows (dump_enums db) (dump_signals srt db) (of_section "{SEND}" l) (of_section "{RECEIVE}" l) (of_section "{SENDRECEIVE}" l)).
(** sym.py:976-990 *)
Definition dump_string (srt : list dsignal -> list dsignal) (db : database) : result chars := let* r := dump_rows srt db in Ok (sym_text r).
End Tree.

(** ** Reading *)
(** sym.py:277-278 *)
Fixpoint drop_ends (l : chars) : chars := match l with c :: r => if Ascii.eqb c newline || Ascii.eqb c "013" then drop_ends r else l | [] => [] end.
Definition load_comment (raw : chars) : chars := rev (drop_ends (rev (skipn 3 raw))).
(** sym.py:268-274 *)
Definition enum_rows (l : list section) : list enum_row := flat_map (fun s => match s with SecEnums r => r | _ => [] end) l.
Definition signal_rows (l : list section) : list sig_row := flat_map (fun s => match s with SecSignals r => r | _ => [] end) l.
Definition symbol_rows (k : string) (l : list section) : list symbol :=
  flat_map (fun s => match s with SecSymbols k' r => if String.eqb k' k then r else [] | _ => [] end) l.
(** sym.py:281-304 *)
Definition enum_dict := list (chars * list (Z * chars)).
Definition load_enum (e : enum_row) : result (chars * list (Z * chars)) :=
  let* l := mapM (fun p => let* z := int_of (fst p) in Ok (z, snd p)) (er_values e) in Ok (er_name e, dupdate Z.eqb [] l).
Definition load_enums (l : list section) : result enum_dict := let* d := mapM load_enum (enum_rows l) in Ok (dupdate chars_eqb [] d).
Definition get_enum (enums : enum_dict) (n : chars) : result (list (Z * chars)) := match cget enums n with Some l => Ok l | None => Err ParseError end.
(** The values of a signal row while its attributes are read *)
Record vals := Vals {
  v_unit : option chars; v_factor : num; v_offset : num; v_enum : option (list (Z * chars)); v_min : option num; v_max : option num; v_spn : option Z }.
(** sym.py:307-343: signed, float, length and the values that the type sets *)
Definition load_type (t : chars) (len : option chars) (enums : enum_dict) : result (bool * bool * Z * vals) :=
  let n := match len with Some x => int_of x | None => Err IndexError end in
  let no := Vals None (DInt 1) (DInt 0) None None None None in
  let is k := chars_eqb t (txt k) in
  if is "signed" then let* n := n in Ok (true, false, n, no)
  else if is "unsigned" then let* n := n in Ok (false, false, n, no)
  else if is "float" then Ok (false, true, 32, no)
  else if is "double" then Ok (false, true, 64, no)
  else if is "bit" then Ok (false, false, 1, Vals None (DInt 1) (DInt 0) None (Some (DInt 0)) (Some (DInt 1)) None)
  else if is "char" then Ok (false, false, 8, no)
  else if is "string" || is "raw" then let* n := n in Ok (false, false, n, no)
  else let* n := n in let* e := get_enum enums t in Ok (false, false, n, Vals None (DInt 1) (DInt 0) (Some e) None None None).
(** sym.py:346-377 *)
Definition load_unit (raw : chars) : chars := if chars_eqb (firstn 4 raw) (txt "/u:" ++ [quote]) then removelast (skipn 4 raw) else skipn 3 raw.
Definition load_attr (enums : enum_dict) (v : vals) (a : sattr) : result vals :=
  match a with
  | AUnit raw => Ok (Vals (Some (load_unit raw)) (v_factor v) (v_offset v) (v_enum v) (v_min v) (v_max v) (v_spn v))
  | AKey k t =>
      if String.eqb k "/f:" then let* n := read_num t in Ok (Vals (v_unit v) n (v_offset v) (v_enum v) (v_min v) (v_max v) (v_spn v))
      else if String.eqb k "/o:" then let* n := read_num t in Ok (Vals (v_unit v) (v_factor v) n (v_enum v) (v_min v) (v_max v) (v_spn v))
      else if String.eqb k "/min:" then let* n := read_num t in Ok (Vals (v_unit v) (v_factor v) (v_offset v) (v_enum v) (Some n) (v_max v) (v_spn v))
      else if String.eqb k "/max:" then let* n := read_num t in Ok (Vals (v_unit v) (v_factor v) (v_offset v) (v_enum v) (v_min v) (Some n) (v_spn v))
      else if String.eqb k "/e:" then let* e := get_enum enums t in Ok (Vals (v_unit v) (v_factor v) (v_offset v) (Some e) (v_min v) (v_max v) (v_spn v))
      else if String.eqb k "/spn:" then let* n := int_of t in Ok (Vals (v_unit v) (v_factor v) (v_offset v) (v_enum v) (v_min v) (v_max v) (Some n))
      else Ok v
  end.
Fixpoint load_attrs (enums : enum_dict) (v : vals) (l : list sattr) : result vals :=
  match l with [] => Ok v | a :: r => let* v := load_attr enums v a in load_attrs enums v r end.
(** sym.py:380-433 and 483-544: a signal of a row, with a start bit and a multiplexer *)
Definition load_values (enums : enum_dict) (name type : chars) (len : option chars) (big : bool) (attrs : list sattr) (comment : option chars) (start : Z)
    (mux : option (chars * Z)) : result dsignal :=
  let* p := load_type type len enums in
  let '(signed, float, n, v) := p in
  let* v := load_attrs enums v attrs in
  Ok (DSignal name start n big signed None (v_factor v) (v_offset v) float (v_enum v) (v_min v) (v_max v) (v_unit v) (option_map load_comment comment) []
        false (option_map (fun p => [snd p]) mux) (option_map fst mux) (option_map AInt (v_spn v)) []).
(** The start of a signal row is not used. *)
Definition load_sig_row (enums : enum_dict) (r : sig_row) : result dsignal :=
  load_values enums (sr_name r) (sr_type r) (sr_len r) (sr_big r) (sr_attrs r) (sr_comment r) 0 None.
(** sym.py:436-444 *)
Definition sig_dict := list (chars * dsignal).
Definition load_signals (enums : enum_dict) (l : list section) : result sig_dict :=
  let* s := mapM (load_sig_row enums) (signal_rows l) in Ok (dupdate chars_eqb [] (map (fun s => (s_name s, s)) s)).
(** sym.py:447-481 *)
Definition place (s : dsignal) (start : Z) (mux : option (chars * Z)) : dsignal :=
  DSignal (s_name s) start (s_length s) (s_big s) (s_signed s) (s_initial s) (s_scale s) (s_offset s) (s_float s) (s_choices s) (s_min s) (s_max s) (s_unit s)
    (s_comment s) (s_receivers s) (s_is_mux s) (option_map (fun p => [snd p]) mux) (option_map fst mux) (s_spn s) (s_attrs s).
Definition load_sig (signals : sig_dict) (mux : option (chars * Z)) (e : entry) : result (list dsignal) :=
  match e with
  | ESig n t =>
      match cget signals n with
      | Some s => let* z := int_of t in Ok [place s (flip z (s_big s)) mux]
      | None => Err KeyError
      end
  | _ => Ok []
  end.
Definition load_var (enums : enum_dict) (mux : option (chars * Z)) (e : entry) : result (list dsignal) :=
  match e with
  | EVar n t s l f a c =>
      let big := existsb (String.eqb "-m") f in
      let* z := int_of s in let* x := load_values enums n t (Some l) big a c (flip z big) mux in Ok [x]
  | _ => Ok []
  end.
(** sym.py:547-564 *)
Definition load_inner (signals : sig_dict) (enums : enum_dict) (mux : option (chars * Z)) (s : symbol) : result (list dsignal) :=
  let* a := mapM (load_sig signals mux) (sy_entries s) in
  let* b := mapM (load_var enums mux) (sy_entries s) in
  Ok (List.concat a ++ List.concat b).
Definition entries (k : string) (s : symbol) : list entry := filter (fun e => String.eqb (entry_key e) k) (sy_entries s).
(** int(text, 16) for the texts of HEXNUMBER tokens *)
Definition unsigned_hex_of (t : chars) : result Z := match t with [] => Err ValueError | _ => if forallb hex_any t then Ok (hex_int t) else Err ValueError end.
Definition hex_of (t : chars) : result Z :=
  match t with
  | c :: r => if Ascii.eqb c "-" then let* z := unsigned_hex_of r in Ok (- z) else unsigned_hex_of t
  | [] => Err ValueError
  end.
(** sym.py:571-578 *)
Definition mux_id (t : chars) : result Z := if Ascii.eqb (last t " "%char) "h" then hex_of (removelast t) else int_of t.
Definition entry_dec (a b : entry) : {a = b} + {a <> b}.
Proof. repeat decide equality. Defined.
(** Equality of the names and of the dictionaries of two symbols *)
Definition symbol_eqb (a b : symbol) : bool :=
  chars_eqb (sy_name a) (sy_name b) && forallb (fun k => if list_eq_dec entry_dec (entries k a) (entries k b) then true else false) entry_keys.
(** sym.py:567-619 *)
Definition first_mux (s : symbol) : result (chars * chars * chars * chars * list string * option chars) :=
  match entries "Mux" s with EMux n st l i f c :: _ => Ok (n, st, l, i, f, c) | _ => Err KeyError end.
Definition load_others (signals : sig_dict) (enums : enum_dict) (n : chars) (s x : symbol) : result (list dsignal) :=
  if chars_eqb (sy_name x) (sy_name s) && negb (symbol_eqb x s) then
    let* p := first_mux x in let '(_, _, _, i, _, _) := p in
    let* z := mux_id i in load_inner signals enums (Some (n, z)) x
  else Ok [].
Definition load_muxed (symbols : list symbol) (signals : sig_dict) (enums : enum_dict) (s : symbol) : result (list dsignal) :=
  let* p := first_mux s in
  let '(n, st, l, i, f, c) := p in
  let big := existsb (String.eqb "-m") f in
  let* start := int_of st in
  let* len := int_of l in
  let m := DSignal n (flip start big) len big false None (DInt 1) (DInt 0) false None None None None (option_map load_comment c) [] true None None None [] in
  let* z := mux_id i in
  let* a := load_inner signals enums (Some (n, z)) s in
  let* b := mapM (load_others signals enums n s) symbols in
  Ok (m :: a ++ List.concat b).
(** sym.py:622-638 *)
Definition load_message_signals (symbols : list symbol) (signals : sig_dict) (enums : enum_dict) (s : symbol) : result (list dsignal) :=
  match entries "Mux" s with [] => load_inner signals enums None s | _ => load_muxed symbols signals enums s end.
(** sym.py:641-656 *)
Definition section_senders (k : string) : list chars :=
  if String.eqb k "{SEND}" then [txt "ECU"] else if String.eqb k "{RECEIVE}" then [txt "Peripherals"] else [txt "ECU"; txt "Peripherals"].
Definition num_aval (n : num) : aval := match n with DInt z => AInt z | DFloat f => AFloat f end.
(** sym.py:658-702.  [srt] is the order that the constructor of Message gives the signals. *)
Definition load_message (srt : list dsignal -> list dsignal) (k : string) (symbols : list symbol) (signals : sig_dict) (enums : enum_dict) (s : symbol)
    (ext : bool) (comment : option chars) (id : Z) : result dmessage :=
  let* len := match entries "Len" s with ELen n :: _ => int_of n | _ => Ok 8 end in
  let* cycle := match entries "CycleTime" s with ECycle n _ :: _ => let* x := read_num n in Ok (Some (num_aval x)) | _ => Ok None end in
  let* l := load_message_signals symbols signals enums s in
  Ok (DMessage id ext (sy_name s) len (section_senders k) None cycle (option_map load_comment comment) (srt l) false false None []).
(** sym.py:705-757 *)
Definition is_extended (id : chars) (s : symbol) : bool :=
  (zlen id =? 9) || match entries "Type" s with EType t :: _ => let u := map to_lower t in chars_eqb u (txt "extended") || chars_eqb u (txt "fdextended") | _ => false end.
Definition load_symbol (srt : list dsignal -> list dsignal) (k : string) (symbols : list symbol) (signals : sig_dict) (enums : enum_dict) (s : symbol) : result (list dmessage) :=
  match entries "ID" s with
  | EId a b c :: _ =>
      let* mn := hex_of (removelast a) in
      let* mx := match b with Some t => hex_of (removelast (tl t)) | None => Ok mn end in
      mapM (load_message srt k symbols signals enums s (is_extended a s) c) (zrange mn (mx + 1))
  | _ => Ok []
  end.
Definition load_section (srt : list dsignal -> list dsignal) (l : list section) (signals : sig_dict) (enums : enum_dict) (k : string) : result (list dmessage) :=
  let* r := mapM (load_symbol srt k (symbol_rows k l) signals enums) (symbol_rows k l) in Ok (List.concat r).
(** sym.py:997: the text at the start of a line *)
Definition version_here (t : chars) : bool :=
  match skipn 15 t with
  | c :: d :: _ => chars_eqb (firstn 15 t) (txt "FormatVersion=6") && dot c && Ascii.eqb d "0"
  | _ => false
  end.
Fixpoint version_after (t : chars) : bool := match t with [] => false | c :: r => (Ascii.eqb c newline && version_here r) || version_after r end.
(** sym.py:760-769 and 992-1010 *)
Definition load_string (srt : list dsignal -> list dsignal) (t : chars) : result database :=
  if negb (version_here t || version_after t) then Err ParseError
  else match sym_parse t with
  | None => Err ParseError
  | Some (version, l) =>
      let* enums := load_enums l in
      let* signals := load_signals enums l in
      let* a := load_section srt l signals enums "{SEND}" in
      let* b := load_section srt l signals enums "{RECEIVE}" in
      let* c := load_section srt l signals enums "{SENDRECEIVE}" in
      Ok (Db (Some version) [] [] (a ++ b ++ c) [] [] [] [] [] [] [])
  end.
End Sym.
