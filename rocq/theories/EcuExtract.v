(** EcuExtract: the loader of ECU extracts of src/cantools/database/can/formats/arxml/ecu_extract_loader.py and the choice
    between it and the system loader (arxml/__init__.py), on an element tree.

    Simplifications: a text that is None is the empty text here, as in [Xml].  A name that is put into a search expression
    and has a quotation mark ' makes the expression invalid (SyntaxError; ParseError stands for it here); the code may still
    find something if the rest of the name makes up another valid expression.  NotImplementedError is a RuntimeError.
    int() is modelled for ASCII text.  The byte order of a signal is any text in the code ([es_order]); the layout treats
    whatever is not 'big_endian' as little endian, as [es_sig] says, but the codec of a message leaves out signals whose
    byte order is neither of the two, which is not modelled.  Warnings are left out. *)
From Coq Require Import Ascii Floats.SpecFloat.
From Verif Require Import Base PyNum Conversion Signal Message CSource CNames Regex DbcToken Logreader DecodeCmd DbcLoad Xml Arxml ArxmlLoad.
Local Open Scope string_scope.
Local Open Scope Z_scope.
Local Open Scope list_scope.

(** ** Search in element trees *)
(** ''.join(elem.itertext()) *)
Fixpoint all_text (e : xml) : chars :=
  match e with
  | Elem _ _ t ks => t ++ (fix go (l : list (xml * chars)) : chars := match l with [] => [] | (k, tail) :: r => all_text k ++ tail ++ go r end) ks
  end.
(** ecu_extract_loader.py:24-25: the namespace is fixed *)
Definition r40 : chars := txt "http://autosar.org/schema/r4.0".
Definition has_name (t : string) (e : xml) : bool := chars_eqb (x_tag e) (tagged r40 t).
(** ns:TAG or ns:TAG/[ns:SHORT-NAME='name'] *)
Definition step : Type := string * option chars.
Definition fits (s : step) (e : xml) : bool :=
  has_name (fst s) e && match snd s with None => true | Some n => existsb (fun k => has_name "SHORT-NAME" k && chars_eqb (all_text k) n) (x_kids e) end.
(** elem.iterfind('./...') *)
Fixpoint iterfind (path : list step) (e : xml) : list xml :=
  match path with [] => [e] | s :: r => flat_map (iterfind r) (filter (fits s) (x_kids e)) end.
Definition find (path : list step) (e : xml) : option xml := match iterfind path e with x :: _ => Some x | [] => None end.
Definition plain (l : list string) : list step := map (fun t => (t, None)) l.
(** find(...).text where the text is used as a string *)
Definition text_in (path : list string) (e : xml) : result chars :=
  match find (plain path) e with
  | Some x => match x_text x with [] => Err AttributeError | t => Ok t end
  | None => Err AttributeError
  end.
(** find(...).text *)
Definition text_or_none (path : list string) (e : xml) : result chars :=
  match find (plain path) e with Some x => Ok (x_text x) | None => Err AttributeError end.
(** A name in a search expression *)
Definition quoted (t : string) (n : chars) : result step := if existsb (Ascii.eqb "'") n then Err ParseError else Ok (t, Some n).
(** path.split('/')[-1] and path.split('/')[1] *)
Definition last_part (t : chars) : chars := last (split_on slash t) [].
Definition second_part (t : chars) : result chars := match split_on slash t with _ :: w :: _ => Ok w | _ => Err IndexError end.
(** int(value) *)
Definition int10 (t : chars) : result Z :=
  match t with
  | [] => Err TypeError
  | _ =>
      let o := match strip_space t with
               | "-"%char :: r => option_map Z.opp (read_digits 10 0 r)
               | "+"%char :: r => read_digits 10 0 r
               | r => read_digits 10 0 r
               end in
      match o with Some z => Ok z | None => Err ValueError end
  end.

(** ** Parameters and references of containers *)
(** 345-358 and 360-373, one of them *)
Definition entry (value : string) (p : xml) : result (chars * chars) :=
  let* d := match find (plain ["DEFINITION-REF"]) p with Some x => Ok (x_text x) | None => Err AttributeError end in
  let* v := text_or_none [value] p in
  match d with [] => Err AttributeError | _ => Ok (last_part d, v) end.
Definition entries (section : string) (c : xml) : result (list xml) :=
  match find (plain [section]) c with Some s => Ok (x_kids s) | None => Err ValueError end.
(** A loop that stops at the first entry of a name *)
Fixpoint first_entry (value : string) (name : string) (l : list xml) : result (option chars) :=
  match l with
  | [] => Ok None
  | p :: r => let* e := entry value p in if is_text name (fst e) then Ok (Some (snd e)) else first_entry value name r
  end.

(** ** Signals *)
Record esignal := mkESignal { es_sig : signal; es_order : chars }.
Record emessage := mkEMessage { em_core : message; em_signals : list esignal }.
(** 290-300 *)
Definition com_path (package : step) : list step :=
  [("AR-PACKAGES", None); package; ("ELEMENTS", None); ("ECUC-MODULE-CONFIGURATION-VALUES", Some (txt "Com")); ("CONTAINERS", None);
   ("ECUC-CONTAINER-VALUE", Some (txt "ComConfig")); ("SUB-CONTAINERS", None)].
Record sig_state := mkSigState { g_pos : option Z; g_len : option Z; g_order : option chars; g_signed : bool; g_float : bool }.
(** 239-252, one parameter *)
Definition sig_param (st : sig_state) (p : xml) : result sig_state :=
  let* e := entry "VALUE" p in
  let '(name, v) := e in
  if is_text "ComBitPosition" name then let* z := int10 v in Ok (mkSigState (Some z) (g_len st) (g_order st) (g_signed st) (g_float st))
  else if is_text "ComBitSize" name then let* z := int10 v in Ok (mkSigState (g_pos st) (Some z) (g_order st) (g_signed st) (g_float st))
  else if is_text "ComSignalEndianness" name then
    match v with [] => Err AttributeError | _ => Ok (mkSigState (g_pos st) (g_len st) (Some (lower_text v)) (g_signed st) (g_float st)) end
  else if is_text "ComSignalType" name then
    if is_text "SINT8" v || is_text "SINT16" v || is_text "SINT32" v then Ok (mkSigState (g_pos st) (g_len st) (g_order st) true (g_float st))
    else if is_text "FLOAT32" v || is_text "FLOAT64" v then Ok (mkSigState (g_pos st) (g_len st) (g_order st) (g_signed st) true)
    else Ok st
  else Ok st.
(** 302-313 *)
Definition find_value (root : xml) (path : chars) : result (option xml) :=
  let* p := second_part path in
  let* ps := quoted "AR-PACKAGE" p in
  let* ls := quoted "ECUC-CONTAINER-VALUE" (last_part path) in
  Ok (find (com_path ps ++ [ls]) root).
(** 215-288; the value of VALUE-REF is None if it is empty *)
Definition load_esignal (root : xml) (path : chars) : result (option esignal) :=
  match path with
  | [] => Err AttributeError
  | _ =>
      let* o := find_value root path in
      match o with
      | None => Ok None
      | Some c =>
          let* name := text_or_none ["SHORT-NAME"] c in
          let* ps := entries "PARAMETER-VALUES" c in
          let* st := foldM sig_param ps (mkSigState None None None false false) in
          match g_pos st, g_len st, g_order st with
          | Some pos, Some len, Some order =>
              let* conv := factory f_one f_zero None (g_float st) in
              Ok (Some (mkESignal (mkSignal (to_string name) pos len (is_text "big_endian" order) (g_signed st) conv None None false None None) order))
          | _, _, _ => Ok None
          end
      end
  end.

(** ** Messages *)
(** 315-343: the configuration of the CAN interface that refers to a PDU *)
Fixpoint first_match (expected : string) (ref : chars) (l : list xml) : result bool :=
  match l with
  | [] => Ok false
  | p :: r => let* e := entry "VALUE-REF" p in if is_text expected (fst e) && chars_eqb (snd e) ref then Ok true else first_match expected ref r
  end.
Definition refers_to (ref : chars) (c : xml) : result bool :=
  let* d := text_in ["DEFINITION-REF"] c in
  if ends_with (txt "CanIfTxPduCfg") d then let* l := entries "REFERENCE-VALUES" c in first_match "CanIfTxPduRef" ref l
  else if ends_with (txt "CanIfRxPduCfg") d then let* l := entries "REFERENCE-VALUES" c in first_match "CanIfRxPduRef" ref l
  else Ok false.
Fixpoint first_config (ref : chars) (l : list xml) : result (option xml) :=
  match l with
  | [] => Ok None
  | c :: r => let* b := refers_to ref c in if b then Ok (Some c) else first_config ref r
  end.
Definition can_if_path (package : step) : list step :=
  [("AR-PACKAGES", None); package; ("ELEMENTS", None); ("ECUC-MODULE-CONFIGURATION-VALUES", Some (txt "CanIf")); ("CONTAINERS", None);
   ("ECUC-CONTAINER-VALUE", Some (txt "CanIfInitCfg")); ("SUB-CONTAINERS", None); ("ECUC-CONTAINER-VALUE", None)].
Definition find_config (root : xml) (ref : chars) : result (option xml) :=
  let* p := second_part ref in
  let* ps := quoted "AR-PACKAGE" p in
  first_config ref (iterfind (can_if_path ps) root).
(** 182-213 *)
Definition frame_state := (option Z * option Z * option bool)%type.
Definition frame_param (id dlc type : string) (st : frame_state) (p : xml) : result frame_state :=
  let* e := entry "VALUE" p in
  let '(name, v) := e in
  let '(i, d, t) := st in
  if is_text id name then let* z := int10 v in Ok (Some z, d, t)
  else if is_text dlc name then let* z := int10 v in Ok (i, Some z, t)
  else if is_text type name then Ok (i, d, Some (is_text "EXTENDED_CAN" v))
  else Ok st.
Definition load_frame (root : xml) (ref : chars) (id dlc type : string) : result frame_state :=
  let* o := find_config root ref in
  match o with
  | None => Ok (None, None, None)
  | Some c => let* ps := entries "PARAMETER-VALUES" c in foldM (frame_param id dlc type) ps (None, None, None)
  end.
(** 157-167, one reference *)
Definition signal_ref (root : xml) (v : xml) : result (list esignal) :=
  let* d := text_in ["DEFINITION-REF"] v in
  if ends_with (txt "ComIPduSignalRef") d then
    let* path := text_or_none ["VALUE-REF"] v in
    let* o := load_esignal root path in
    Ok match o with Some s => [s] | None => [] end
  else Ok [].
(** 100-180 *)
Definition load_emessage (strict : bool) (sort : sort_arg) (root c : xml) : result (option emessage) :=
  let* name := text_or_none ["SHORT-NAME"] c in
  let* ps := entries "PARAMETER-VALUES" c in
  let* direction := first_entry "VALUE" "ComIPduDirection" ps in
  let* rs := entries "REFERENCE-VALUES" c in
  let* ro := first_entry "VALUE-REF" "ComPduIdRef" rs in
  let* ref := match ro with None | Some [] => Err ValueError | Some r => Ok r end in
  let* fr := match direction with
             | Some d => if is_text "SEND" d then load_frame root ref "CanIfTxPduCanId" "CanIfTxPduDlc" "CanIfTxPduCanIdType"
                         else if is_text "RECEIVE" d then load_frame root ref "CanIfRxPduCanId" "CanIfRxPduDlc" "CanIfRxPduCanIdType"
                         else Err RuntimeError
             | None => Err RuntimeError
             end in
  match fr with
  | (Some id, Some len, Some ext) =>
      let* l := mapM (signal_ref root) (iterfind (plain ["REFERENCE-VALUES"; "ECUC-REFERENCE-VALUE"]) c) in
      let sigs := List.concat l in
      let* m := mk_message id ext (to_string name) len 0 (map es_sig sigs) strict sort in
      Ok (Some (mkEMessage m sigs))
  | _ => Ok None
  end.
Definition collection_path : list step := plain ["AR-PACKAGES"; "AR-PACKAGE"; "ELEMENTS"; "ECUC-VALUE-COLLECTION"].
Definition com_refs (collection : xml) : result (list chars) :=
  let* l := mapM (fun v => match x_text v with [] => Err AttributeError | t => Ok (if ends_with (txt "/Com") t then [t] else []) end)
              (iterfind (plain ["ECUC-VALUES"; "ECUC-MODULE-CONFIGURATION-VALUES-REF-CONDITIONAL"; "ECUC-MODULE-CONFIGURATION-VALUES-REF"]) collection) in
  Ok (List.concat l).
(** 61-98 *)
Definition load_extract (strict : bool) (sort : sort_arg) (root : xml) : result (list emessage) :=
  match find collection_path root with
  | None => Err AttributeError
  | Some collection =>
      let* refs := com_refs collection in
      match refs with
      | [ref] =>
          let* p := second_part (ref ++ txt "/ComConfig") in
          let* ps := quoted "AR-PACKAGE" p in
          match find (com_path ps) root with
          | None => Err TypeError
          | Some com =>
              let* l := mapM (fun c =>
                let* d := text_in ["DEFINITION-REF"] c in
                if ends_with (txt "ComIPdu") d then let* o := load_emessage strict sort root c in Ok match o with Some m => [m] | None => [] end
                else Ok []) (x_kids com) in
              Ok (List.concat l)
          end
      | _ => Err ValueError
      end
  end.

(** ** The choice of the loader: arxml/__init__.py *)
(** __init__.py:55: what the group of the expression for tags matches, behind the brace: the longest text without line feed
    that is followed by }AUTOSAR *)
Fixpoint longest_namespace (l : chars) : option chars :=
  let here := match after (txt "}AUTOSAR") l with Some _ => Some [] | None => None end in
  match l with
  | [] => here
  | c :: r => if Ascii.eqb c lf then here else match longest_namespace r with Some n => Some (c :: n) | None => here end
  end.
Definition any_namespace (tag : chars) : option chars := match tag with "{"%char :: r => longest_namespace r | _ => None end.
(** A pattern of literal characters and . *)
Fixpoint dotted (p l : chars) : option chars :=
  match p, l with
  | [], _ => Some l
  | "."%char :: p', c :: l' => if Ascii.eqb c lf then None else dotted p' l'
  | d :: p', c :: l' => if Ascii.eqb c d then dotted p' l' else None
  | _ :: _, [] => None
  end.
(** .DAI. and a digit, behind any text without line feed *)
Fixpoint has_dai (l : chars) : bool :=
  match after (txt ".DAI.") l with Some (d :: _) => is_digit d | _ => false end ||
  match l with [] => false | c :: r => negb (Ascii.eqb c lf) && has_dai r end.
(** __init__.py:61-68 *)
Definition recognized (ns : chars) : bool :=
  match dotted (txt "http://autosar.org/schema/r4") ns with Some _ => true | None => false end ||
  match dotted (txt "http://autosar.org/3") ns with Some _ => true | None => false end ||
  match dotted (txt "http://autosar.org/") ns with Some r => has_dai r | None => false end.
(** __init__.py:22-43 *)
Definition is_ecu_extract (root : xml) : bool := match find collection_path root with Some _ => true | None => false end.
Inductive arxml_db := System (d : adatabase) | Extract (ms : list emessage).
(** __init__.py:45-78 after the text has been parsed *)
Definition load_arxml (from_text : chars -> option spec_float) (from_hex : chars -> result spec_float) (strict : bool) (sort : sort_arg) (limit : nat) (root : xml) : result arxml_db :=
  match any_namespace (x_tag root) with
  | None => Err ValueError
  | Some ns =>
      if recognized ns then
        if is_ecu_extract root then
          if chars_eqb (x_tag root) (tagged ns "AUTOSAR") then let* ms := load_extract strict sort root in Ok (Extract ms) else Err ValueError
        else let* d := load_system from_text from_hex strict sort limit root in Ok (System d)
      else Err ValueError
  end.
