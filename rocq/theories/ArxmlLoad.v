(** ArxmlLoad: the system loader of src/cantools/database/can/formats/arxml/system_loader.py, on an element tree.

    Simplifications besides those of [Arxml]: a name that is None in the code is the empty text here.  A value of a text
    table that is not integral is kept in [a_choices] but not in the conversion, which looks values up by integers.  A
    signal without length makes loading fail at once, where the code fails when it makes the message.  [a_sig] is the
    part of a signal that the codec uses; the message's own list of signals is sorted, [am_signals] has the signals in the
    order in which they are read.  The path None
    that the code notes for a PDU which is not given by a reference is left out of [sp_paths]; no path is equal to it.  The
    objects that only hold a name for AUTOSAR (of buses and nodes) are left out.
    [limit] bounds the depth of PDUs that refer to PDUs, as Python's recursion limit does. *)
From Coq Require Import Ascii Floats.SpecFloat.
From Verif Require Import Base PyNum Conversion Signal Message CSource CNames Regex DbcToken Logreader DecodeCmd Xml Arxml.
Local Open Scope string_scope.
Local Open Scope Z_scope.
Local Open Scope list_scope.

Definition to_string (l : chars) : string := string_of_list_ascii l.
Definition comments_t := list (chars * chars).
Record named := mkNamed { nv_value : num; nv_name : chars; nv_comments : option comments_t }.

Record asignal := mkASignal {
  a_sig : signal;
  a_raw_initial : option num; a_initial : option value;
  a_raw_invalid : option num; a_invalid : option value;
  a_unit : option chars; a_comments : option comments_t; a_receivers : list chars;
  a_choices : option (list named) }.

(** end_to_end_properties.py and secoc_properties.py *)
Record e2e := mkE2E { e_category : option chars; e_ids : list Z; e_length : Z }.
Record secoc := mkSecOC {
  so_auth : option chars; so_fresh : option chars; so_payload : Z; so_data_id : option Z;
  so_fresh_len : option Z; so_fresh_tx : option Z; so_auth_tx : option Z }.
(** message_specifics.py *)
Record specifics := mkSpec { sp_paths : list chars; sp_nm : bool; sp_general : bool; sp_secoc : option secoc; sp_e2e : option e2e }.
Definition no_specifics : specifics := mkSpec [] false false None None.

(** A message that contains no messages *)
Record ainfo := mkInfo {
  am_core : message; am_bus : option chars; am_fd : bool; am_header : option Z; am_cycle : option Z;
  am_comments : option comments_t; am_senders : list chars; am_signals : list asignal; am_spec : specifics }.
Record amessage := mkAMsg { am_info : ainfo; am_big_header : bool; am_contained : list ainfo }.
Record abus := mkBus { b_name : chars; b_comments : option comments_t; b_rate : option Z; b_fd_rate : option Z }.
Record anode := mkANode { nd_name : chars; nd_comments : option comments_t }.
Record adatabase := mkADb { db_buses : list abus; db_nodes : list anode; db_messages : list amessage; db_version : version }.

Definition f_one : num := NFlt float_one.
Definition f_zero : num := NFlt (S754_zero false).

Section Load.
  Context (from_text : chars -> option spec_float) (from_hex : chars -> result spec_float).
  Context (ns : chars) (rf : refs) (ver : version) (strict : bool) (sort : sort_arg).
  Notation number := (number from_text from_hex).
  Notation integer := (integer from_text from_hex).
  Notation children := (children ns rf).
  Notation child := (child ns rf).
  Notation has_tag := (has_tag ns).
  Notation n_find := (n_find ns).
  Definition ar4 : bool := newer ver 4.
  Definition loc (l4 l3 : list string) : list string := if ar4 then l4 else l3.

  (** x.text of what may be None *)
  Definition text_exn (o : option node) : result chars := match o with Some n => Ok (n_text n) | None => Err AttributeError end.
  (** Methods of an element that may be None, see system_loader.py:2218-2220 *)
  Definition child_exn (o : option node) (l : list string) : result (option node) := match o with Some n => child n l | None => Err ValueError end.
  Definition integer_exn (o : option node) : result Z := let* t := text_exn o in integer t.
  Definition opt_integer (o : option node) : result (option Z) :=
    match o with None => Ok None | Some n => let* z := integer (n_text n) in Ok (Some z) end.
  Definition opt_number (o : option node) : result (option num) :=
    match o with None => Ok None | Some n => let* z := number (n_text n) in Ok (Some z) end.
  Definition opt_text (o : option node) : option chars := option_map n_text o.
  Definition name_of (n : node) : result chars := let* o := child n ["SHORT-NAME"] in text_exn o.

  (** 1365-1382 *)
  Definition comment_text (t : chars) : chars := join_with lf (map strip_space (split_on lf t)).
  Definition load_comments (n : node) : result (option comments_t) :=
    let* l := children n ["DESC"; "*L-2"] in
    let d := fold_left (fun d x => match n_text x with
                                   | [] => d
                                   | t => dset chars_eqb d (match n_attr x "L" with Some a => a | None => txt "EN" end) (comment_text t)
                                   end) l [] in
    Ok match d with [] => None | _ => Some d end.

  (** ** Computation methods *)
  (** 1845-1857 *)
  Definition scale_limits (n : node) : result (option num * option num) :=
    let* lo := child n ["LOWER-LIMIT"] in
    let* hi := child n ["UPPER-LIMIT"] in
    let* l := opt_number lo in
    let* h := opt_number hi in
    Ok (l, h).
  Definition put_choice (l : list named) (c : named) : list named :=
    map snd (dset py_eq (map (fun x => (nv_value x, x)) l) (nv_value c) c).
  Definition scales : list string := ["&COMPU-INTERNAL-TO-PHYS"; "COMPU-SCALES"; "*&COMPU-SCALE"].
  (** 1745-1768 *)
  Definition text_entry (choices : list named) (n : node) : result (list named) :=
    let* vt := child n ["&COMPU-CONST"; "VT"] in
    let* lim := scale_limits n in
    match lim with
    | (Some lo, Some hi) =>
        if py_eq lo hi then
          let* name := text_exn vt in
          let* c := load_comments n in
          Ok (put_choice choices (mkNamed lo name c))
        else Err AssertionError
    | _ => Err AssertionError
    end.
  Definition load_texttable (n : node) : result (list named) := let* l := children n scales in foldM text_entry l [].
  (** 1770-1821 *)
  Definition linear := (option num * option num * num * num)%type.
  Definition scaled_limit (o : option num) (factor offset : num) : result (option num) :=
    match o with None => Ok None | Some l => let* p := py_mul l factor in let* s := py_add p offset in Ok (Some s) end.
  Definition linear_scale (n : node) : result linear :=
    let* co := child n ["&COMPU-RATIONAL-COEFFS"] in
    let* fo := match co with
               | None => Ok (f_one, f_zero)
               | Some c =>
                   let* nums := children c ["&COMPU-NUMERATOR"; "*&V"] in
                   match nums with
                   | [n0; n1] =>
                       let* dens := children c ["&COMPU-DENOMINATOR"; "*&V"] in
                       match dens with
                       | [d0] =>
                           let* d := number (n_text d0) in
                           let* x1 := number (n_text n1) in
                           let* f := py_truediv x1 d in
                           let* x0 := number (n_text n0) in
                           let* o := py_truediv x0 d in
                           Ok (f, o)
                       | _ => Err ValueError
                       end
                   | _ => Err ValueError
                   end
               end in
    let* lim := scale_limits n in
    let '(lo, hi) := match lim with
                     | (Some l, Some h) => if py_gt l h then (None, None) else lim
                     | _ => lim
                     end in
    let* mn := scaled_limit lo (fst fo) (snd fo) in
    let* mx := scaled_limit hi (fst fo) (snd fo) in
    Ok (mn, mx, fst fo, snd fo).
  Definition no_scale : linear := (None, None, f_one, f_zero).
  (** 1823-1843 *)
  Definition load_linear (n : node) : result linear :=
    let* l := children n ["COMPU-INTERNAL-TO-PHYS"; "COMPU-SCALES"; "&COMPU-SCALE"] in
    foldM (fun _ s => linear_scale s) l no_scale.
  (** 1859-1915 *)
  Definition mixed_entry (st : linear * list named) (n : node) : result (linear * list named) :=
    let* vt := child n ["&COMPU-CONST"; "VT"] in
    match vt with
    | Some v =>
        let* lim := scale_limits n in
        match match lim with
              | (None, None) => None
              | (None, Some h) => Some h
              | (Some l, None) => Some l
              | (Some l, Some h) => if py_eq l h then Some l else None
              end with
        | None => Ok st
        | Some value => let* c := load_comments n in Ok (fst st, put_choice (snd st) (mkNamed value (n_text v) c))
        end
    | None => let* s := linear_scale n in Ok (s, snd st)
    end.
  Definition load_mixed (n : node) : result (linear * list named) :=
    let* l := children n scales in foldM mixed_entry l (no_scale, []).

  (** 2339-2354 *)
  Definition compu_method (sys : node) : result (option node) :=
    child sys (loc ["&PHYSICAL-PROPS"; "SW-DATA-DEF-PROPS-VARIANTS"; "&SW-DATA-DEF-PROPS-CONDITIONAL"; "&COMPU-METHOD"]
                   ["&DATA-TYPE"; "SW-DATA-DEF-PROPS"; "&COMPU-METHOD"]).
  (** 1721-1743 *)
  Definition load_unit (sys : node) (cm : option node) : result (option chars) :=
    let* r := child sys ["PHYSICAL-PROPS"; "SW-DATA-DEF-PROPS-VARIANTS"; "&SW-DATA-DEF-PROPS-CONDITIONAL"; "&UNIT"; "DISPLAY-NAME"] in
    let* r := match r, cm with None, Some c => child c ["&UNIT"; "DISPLAY-NAME"] | _, _ => Ok r end in
    Ok match r with
       | Some n => if is_text "NoUnit" (n_text n) then None else match n_text n with [] => None | t => Some t end
       | None => None
       end.
  (** 1917-1970 *)
  Definition load_system_signal (sys : node) : result (linear * option (list named) * option chars * option comments_t) :=
    let* cm := compu_method sys in
    let* unit := load_unit sys cm in
    let* com := load_comments sys in
    match cm with
    | None => Ok (no_scale, None, unit, com)
    | Some c =>
        let* cat := child c ["CATEGORY"] in
        match cat with
        | None => Ok (no_scale, None, unit, com)
        | Some k =>
            if is_text "TEXTTABLE" (n_text k) then let* t := load_texttable c in Ok (no_scale, Some t, unit, com)
            else if is_text "LINEAR" (n_text k) then let* l := load_linear c in Ok (l, None, unit, com)
            else if is_text "SCALE_LINEAR_AND_TEXTTABLE" (n_text k) then let* m := load_mixed c in Ok (fst m, Some (snd m), unit, com)
            else Ok (no_scale, None, unit, com)
        end
    end.

  (** ** Signals *)
  (** 1972-2003 and 2356-2363 *)
  Definition load_type (i_signal : node) : result (bool * bool) :=
    let* bt := child i_signal ["&NETWORK-REPRESENTATION-PROPS"; "SW-DATA-DEF-PROPS-VARIANTS"; "&SW-DATA-DEF-PROPS-CONDITIONAL"; "&BASE-TYPE"] in
    match bt with
    | None => Ok (false, false)
    | Some b =>
        let* en := child b ["&BASE-TYPE-ENCODING"] in
        match en with
        | None => match n_find "SHORT-NAME" b with Some _ => Err ValueError | None => Err AttributeError end
        | Some e =>
            let t := n_text e in
            if is_text "2C" t || is_text "1C" t || is_text "SM" t then Ok (true, false)
            else Ok (false, is_text "IEEE754" t)
        end
    end.
  (** 1532-1542: the name of the system signal is taken only if its SHORT-NAME has elements *)
  Definition load_name (i_signal : node) : result chars :=
    let* o := child i_signal ["&SYSTEM-SIGNAL"; "SHORT-NAME"] in
    match o with
    | Some n => match x_kids (snd n) with [] => name_of i_signal | _ => Ok (n_text n) end
    | None => name_of i_signal
    end.
  (** 1549-1565 *)
  Definition load_length (i_signal : node) (sys : option node) : result Z :=
    let* l := child i_signal ["LENGTH"] in
    match l with
    | Some n => integer (n_text n)
    | None =>
        match ar4, sys with
        | false, Some s =>
            let* sl := child s ["LENGTH"] in
            match sl with Some n => integer (n_text n) | None => Err TypeError end
        | _, _ => Err TypeError
        end
    end.
  (** 1710-1719 *)
  Definition load_big (mapping : node) : result bool :=
    let* o := child mapping ["PACKING-BYTE-ORDER"] in
    Ok match o with Some n => is_text "MOST-SIGNIFICANT-BYTE-FIRST" (n_text n) | None => false end.
  (** 1567-1587 and 1645-1708; [] is None *)
  Definition load_init_text (i_signal : node) (sys : option node) : result (option chars) :=
    if ar4 then
      let* v := child i_signal ["INIT-VALUE"; "NUMERICAL-VALUE-SPECIFICATION"; "VALUE"] in
      match v with
      | Some n => Ok (Some (n_text n))
      | None =>
          let* w := child i_signal ["INIT-VALUE"; "CONSTANT-REFERENCE"; "&CONSTANT"; "VALUE-SPEC"; "NUMERICAL-VALUE-SPECIFICATION"; "VALUE"] in
          Ok (opt_text w)
      end
    else
      match sys with
      | None => Ok None
      | Some s =>
          match n_find "INIT-VALUE-REF" s with
          | None => Ok None
          | Some r =>
              let* o := follow ns rf s (n_text r) (n_attr r "DEST") (n_attr r "BASE") in
              match o with
              | None => Ok None
              | Some l => Ok (opt_text (n_find "VALUE" l))
              end
          end
      end.
  (** 1496-1504: what is no number is left out *)
  Definition load_initial (i_signal : node) (sys : option node) : result (option Z) :=
    let* t := load_init_text i_signal sys in
    match t with
    | None | Some [] => Ok None
    | Some x => match integer x with Ok z => Ok (Some z) | Err ValueError => Ok None | Err e => Err e end
    end.
  (** 1589-1643 *)
  Definition load_invalid (i_signal : node) (sys : option node) : result (option Z) :=
    if ar4 then
      let* v := child i_signal ["NETWORK-REPRESENTATION-PROPS"; "SW-DATA-DEF-PROPS-VARIANTS"; "SW-DATA-DEF-PROPS-CONDITIONAL";
                                "INVALID-VALUE"; "NUMERICAL-VALUE-SPECIFICATION"; "VALUE"] in
      opt_integer v
    else
      let* v := child_exn sys ["&DATA-TYPE"; "SW-DATA-DEF-PROPS"; "INVALID-VALUE"] in
      match v with
      | None => Ok None
      | Some n =>
          let* l := child n ["INTEGER-LITERAL"; "VALUE"] in
          match l with
          | Some x => opt_integer (Some x)
          | None =>
              let* b := child n ["BOOLEAN-LITERAL"; "VALUE"] in
              match b with
              | None => Ok None
              | Some x => match n_text x with [] => Err AttributeError | t => Ok (Some (if is_text "true" (strip_space (lower_text t)) then 1 else 0)) end
              end
          end
      end.
  (** The entries of a text table that the conversion can find *)
  Definition integral (c : named) : list (Z * choice) :=
    match py_int (nv_value c) with
    | Ok z => if py_eq (nv_value c) (NInt z) then [(z, ChNamed z (to_string (nv_name c)))] else []
    | Err _ => []
    end.
  Definition conv_choices_of (l : list named) : choices_t := flat_map integral l.
  (** signal.py:47-138 as far as it computes: the initial and the invalid value *)
  Definition scaled_opt (c : conversion) (o : option Z) : result (option value) :=
    match o with None => Ok None | Some z => let* v := raw_to_scaled c (NInt z) true in Ok (Some v) end.
  Definition new_signal (name : chars) (start length : Z) (big signed : bool) (conv : conversion) (mn mx : option num) (initial invalid : option Z)
             (unit : option chars) (com : option comments_t) (choices : option (list named)) (is_mux : bool) : result asignal :=
    let* ini := scaled_opt conv initial in
    let* inv := scaled_opt conv invalid in
    Ok (mkASignal (mkSignal (to_string name) start length big signed conv mn mx is_mux None None)
          (option_map NInt initial) ini (option_map NInt invalid) inv unit com [] choices).
  (** 1441-1530 *)
  Definition load_signal (mapping : node) : result (option asignal) :=
    let* o := child mapping (loc ["&I-SIGNAL"] ["&SIGNAL"]) in
    match o with
    | None => Ok None
    | Some i_signal =>
        let* sys := child i_signal ["&SYSTEM-SIGNAL"] in
        if match sys with Some s => negb (has_tag "SYSTEM-SIGNAL" s) | None => false end then Ok None
        else
          let* name := load_name i_signal in
          let* so := child mapping ["START-POSITION"] in
          let* start := integer_exn so in
          let* length := load_length i_signal sys in
          let* big := load_big mapping in
          let* ty := load_type i_signal in
          let* ph := match sys with Some s => load_system_signal s | None => Ok (no_scale, None, None, None) end in
          let '(mn, mx, factor, offset, choices, unit, com) := ph in
          let* initial := load_initial i_signal sys in
          let* invalid := load_invalid i_signal sys in
          let* conv := factory factor offset (option_map conv_choices_of choices) (snd ty) in
          let* s := new_signal name start length big (fst ty) conv mn mx initial invalid unit com choices false in
          Ok (Some s)
    end.
  (** 1300-1341 *)
  Definition load_pdu_signals (pdu : node) : result (list asignal) :=
    let* a := children pdu (loc ["I-SIGNAL-TO-PDU-MAPPINGS"; "*&I-SIGNAL-TO-I-PDU-MAPPING"] ["SIGNAL-TO-PDU-MAPPINGS"; "*&I-SIGNAL-TO-I-PDU-MAPPING"]) in
    let* b := children pdu ["I-SIGNAL-TO-I-PDU-MAPPINGS"; "*&I-SIGNAL-TO-I-PDU-MAPPING"] in
    let* l := mapM load_signal (a ++ b) in
    Ok (flat_map (fun o => match o with Some s => [s] | None => [] end) l).

  (** ** PDUs *)
  (** 1384-1439: the properties are replaced if the PDU has a signal group with transformation properties *)
  Definition load_e2e_group (pdu : node) (old : option e2e) : result (option e2e) :=
    let* lo := child pdu ["LENGTH"] in
    let* len := integer_exn lo in
    let* groups := children pdu ["I-SIGNAL-TO-PDU-MAPPINGS"; "*I-SIGNAL-TO-I-PDU-MAPPING"; "&I-SIGNAL-GROUP"] in
    match rev groups with
    | [] => Ok old
    | g :: _ =>
        let* tp := child g ["TRANSFORMATION-I-SIGNAL-PROPSS"; "END-TO-END-TRANSFORMATION-I-SIGNAL-PROPS";
                            "END-TO-END-TRANSFORMATION-I-SIGNAL-PROPS-VARIANTS"; "END-TO-END-TRANSFORMATION-I-SIGNAL-PROPS-CONDITIONAL"] in
        match tp with
        | None => Ok old
        | Some t =>
            let* pn := child t ["&TRANSFORMER"; "TRANSFORMATION-DESCRIPTIONS"; "END-TO-END-TRANSFORMATION-DESCRIPTION"; "PROFILE-NAME"] in
            let* ds := children t ["DATA-IDS"; "*DATA-ID"] in
            let* ids := mapM (fun d => integer (n_text d)) ds in
            Ok (Some (mkE2E (opt_text pn) ids len))
        end
    end.
  Definition payload_of (pdu : node) : result (option node) := child pdu ["&PAYLOAD"; "&I-PDU"].
  (** 881-903: the pseudo signals of a secured PDU *)
  Definition ident : conversion := CNum (CIdent false).
  Definition pseudo_comment (what name : chars) : option comments_t :=
    Some [(txt "FOR-ALL", txt "Truncated " ++ what ++ txt " value for '" ++ name ++ txt "'")].
  Definition pseudo_signal (name what suffix : chars) (start length : Z) : result asignal :=
    new_signal (name ++ suffix) start length true false ident None None None None None (pseudo_comment what name) None false.
  Definition freshness_signals (name : chars) (payload : Z) (fresh_tx : option Z) : result (list asignal) :=
    match fresh_tx with
    | Some f => if 0 <? f then let* s := pseudo_signal name (txt "freshness") (txt "_Freshness") (payload * 8 + 7) f in Ok [s] else Ok []
    | None => Ok []
    end.
  Definition authenticator_signals (name : chars) (payload : Z) (fresh_tx auth_tx : option Z) : result (list asignal) :=
    match auth_tx with
    | Some a =>
        if 0 <? a then
          match fresh_tx with
          | None => Err TypeError
          | Some f =>
              let* s := pseudo_signal name (txt "authenticator") (txt "_Authenticator") (payload * 8 + (f / 8) * 8 + (7 - f mod 8)) a in Ok [s]
          end
        else Ok []
    | None => Ok []
    end.
  (** 826-918: the additional signals and the specifics *)
  Definition load_secured (name : chars) (pdu : node) (sp : specifics) : result (list asignal * specifics) :=
    let* pp := payload_of pdu in
    let* pl := child_exn pp ["LENGTH"] in
    let* len := integer_exn pl in
    let* e := match sp_e2e sp, pp with Some e, _ => Ok (Some e) | None, Some p => load_e2e_group p None | None, None => Err ValueError end in
    let* auth := child pdu ["&AUTHENTICATION-PROPS"; "SHORT-NAME"] in
    let* fresh := child pdu ["&FRESHNESS-PROPS"; "SHORT-NAME"] in
    let* di := child pdu ["SECURE-COMMUNICATION-PROPS"; "DATA-ID"] in
    let* data_id := opt_integer di in
    let* at_ := child pdu ["&AUTHENTICATION-PROPS"; "AUTH-INFO-TX-LENGTH"] in
    let* auth_tx := opt_integer at_ in
    let* fl := child pdu ["&FRESHNESS-PROPS"; "FRESHNESS-VALUE-LENGTH"] in
    let* fresh_len := opt_integer fl in
    let* ft := child pdu ["&FRESHNESS-PROPS"; "FRESHNESS-VALUE-TX-LENGTH"] in
    let* fresh_tx := opt_integer ft in
    let* fs := freshness_signals name len fresh_tx in
    let* as_ := authenticator_signals name len fresh_tx auth_tx in
    Ok (fs ++ as_, mkSpec (sp_paths sp) (sp_nm sp) (sp_general sp)
                     (Some (mkSecOC (opt_text auth) (opt_text fresh) len data_id fresh_len fresh_tx auth_tx)) e).
  Definition unused_bits (pdu : node) : result Z :=
    let* u := child pdu ["UNUSED-BIT-PATTERN"] in
    match u with None => Ok 255 | Some n => integer (n_text n) end.
  (** 1093-1098 *)
  Definition cycle_time (pdu : node) : result (option Z) :=
    let* o := child pdu (loc ["I-PDU-TIMING-SPECIFICATIONS"; "I-PDU-TIMING"; "TRANSMISSION-MODE-DECLARATION"; "TRANSMISSION-MODE-TRUE-TIMING";
                              "CYCLIC-TIMING"; "TIME-PERIOD"; "VALUE"]
                             ["I-PDU-TIMING-SPECIFICATION"; "CYCLIC-TIMING"; "REPEATING-TIME"; "VALUE"]) in
    match o with
    | None => Ok None
    | Some n =>
        let* f := match n_text n with
                  | [] => Err TypeError
                  | t => match from_text t with Some f => Ok f | None => Err ValueError end
                  end in
        let* p := py_mul (NFlt f) (NInt 1000) in
        let* z := py_int p in
        Ok (Some z)
    end.

  (** What [_load_pdu] returns: the signals, the cycle time, the paths of the PDUs below, and the messages of a container.
      The number of the next selector that it returns is always the one that it was given, and the length is not used. *)
  Record pdu_load := mkPdu { p_signals : list asignal; p_cycle : option Z; p_paths : list chars; p_contained : option (list ainfo) }.

  Definition set_mux (sel : string) (v : Z) (s : asignal) : asignal :=
    let g := a_sig s in
    match s_mux_sig g with
    | Some _ => s
    | None => mkASignal (mkSignal (s_name g) (s_start g) (s_length g) (s_big g) (s_signed g) (s_conv g) (s_min g) (s_max g) (s_is_mux g) (Some [v]) (Some sel))
                (a_raw_initial s) (a_initial s) (a_raw_invalid s) (a_invalid s) (a_unit s) (a_comments s) (a_receivers s) (a_choices s)
    end.
  Definition min_cycle (a b : option Z) : option Z :=
    match b with None => a | Some y => match a with Some x => Some (Z.min x y) | None => Some y end end.
  (** The loop over the alternatives: 1165-1241.  The state: the signals, the cycle time, the paths, the initial value of
      the selector, its invalid value, its choices *)
  Record mux_state := mkMux { x_signals : list asignal; x_cycle : option Z; x_paths : list chars; x_initial : option Z; x_invalid : option value; x_choices : list named }.

  Definition new_info (bus : option chars) (frame_id : Z) (ext fd : bool) (name : chars) (len unused : Z) (header cycle : option Z)
             (com : option comments_t) (sigs : list asignal) (sp : specifics) (st : bool) : result ainfo :=
    let* m := mk_message frame_id ext (to_string name) len unused (map a_sig sigs) st sort in
    Ok (mkInfo m bus fd header cycle com [] sigs sp).

  Section Pdu.
    (** [_load_pdu] for a smaller depth; the second argument is the number of the next selector *)
    Context (load : node -> Z -> result pdu_load) (frame : chars).

    (** 1170-1241, one alternative *)
    Definition load_alternative (sel : string) (pos len next : Z) (st : mux_state) (alt : node) : result mux_state :=
      let* vo := child alt ["SELECTOR-FIELD-CODE"] in
      let* v := integer_exn vo in
      let* po := child alt ["&I-PDU"] in
      let* ro := child alt ["I-PDU-REF"] in
      let* path := match ro with Some r => absolute_path ns rf alt (n_text r) (n_attr r "BASE") | None => Err AttributeError end in
      let* p := match po with Some p => load p next | None => Err AttributeError end in
      let* io := child alt ["INITIAL-DYNAMIC-PART"] in
      let is_initial := match io with Some n => is_text "true" (n_text n) | None => false end in
      let* initial := (if is_initial then match x_initial st with Some _ => Err AssertionError | None => Ok (Some v) end else Ok (x_initial st)) in
      match filter (fun s => s_start (a_sig s) =? pos) (p_signals p) with
      | [d] =>
          if s_length (a_sig d) =? len then
            Ok (mkMux (x_signals st ++ map (set_mux sel v) (filter (fun s => negb (s_start (a_sig s) =? pos)) (p_signals p)))
                  (min_cycle (x_cycle st) (p_cycle p)) (x_paths st ++ path :: p_paths p) initial
                  (match a_invalid d with Some i => Some i | None => x_invalid st end)
                  (match a_choices d with Some c => fold_left put_choice c (x_choices st) | None => x_choices st end))
          else Err AssertionError
      | _ => Err AssertionError
      end.
    (** 1274-1296, one static part *)
    Definition load_static (pdu : node) (next : Z) (r : node) : result (list asignal * list chars) :=
      let* path := absolute_path ns rf pdu (n_text r) (n_attr r "BASE") in
      let* o := follow ns rf pdu path (n_attr r "DEST") None in
      let* p := match o with Some q => load q next | None => Err AttributeError end in
      Ok (p_signals p, path :: p_paths p).
    Definition selector_name (next : Z) : chars := frame ++ txt "_selector" ++ decimal next.
    (** 1117-1298 *)
    Definition load_multiplexed (pdu : node) (next : Z) : result (list asignal * option Z * list chars) :=
      let* po := child pdu ["SELECTOR-FIELD-START-POSITION"] in
      let* pos := integer_exn po in
      let* lo := child pdu ["SELECTOR-FIELD-LENGTH"] in
      let* len := integer_exn lo in
      let* bo := child pdu ["SELECTOR-FIELD-BYTE-ORDER"] in
      let* big := match bo with
                  | None => Ok false
                  | Some b => if is_text "MOST-SIGNIFICANT-BYTE-FIRST" (n_text b) then Ok true
                              else if is_text "MOST-SIGNIFICANT-BYTE-LAST" (n_text b) then Ok false else Err AssertionError
                  end in
      let name := selector_name next in
      let* alts := children pdu (loc ["DYNAMIC-PARTS"; "*DYNAMIC-PART"; "DYNAMIC-PART-ALTERNATIVES"; "*DYNAMIC-PART-ALTERNATIVE"]
                                     ["DYNAMIC-PART"; "DYNAMIC-PART-ALTERNATIVES"; "*DYNAMIC-PART-ALTERNATIVE"]) in
      let* st := foldM (load_alternative (to_string name) pos len (next + 1)) alts (mkMux [] None [] None None []) in
      let* conv := match x_choices st with [] => Ok ident | l => factory (NInt 1) (NInt 0) (Some (conv_choices_of l)) false end in
      let* sel := new_signal name pos len big false conv None None (x_initial st) None None None (match x_choices st with [] => None | l => Some l end) true in
      let sel := mkASignal (a_sig sel) (a_raw_initial sel) (a_initial sel) None (x_invalid st) None None [] (a_choices sel) in
      let* refs := children pdu (loc ["STATIC-PARTS"; "*STATIC-PART"; "I-PDU-REF"] ["STATIC-PART"; "I-PDU-REF"]) in
      let* statics := mapM (load_static pdu (next + 1)) refs in
      Ok (sel :: x_signals st ++ List.concat (map fst statics), x_cycle st, x_paths st ++ List.concat (map snd statics)).

    (** 953-1031, one contained PDU.  The messages are checked in any case. *)
    Definition load_contained (next : Z) (c : node) : result (ainfo * list chars) :=
      let* name := name_of c in
      let* lo := child c ["LENGTH"] in
      let* len := integer_exn lo in
      let* ho := child c ["CONTAINED-I-PDU-PROPS"; "HEADER-ID-SHORT-HEADER"] in
      let* header := integer_exn ho in
      let* com := load_comments c in
      let* unused := unused_bits c in
      let* p := load c next in
      match p_contained p with
      | Some _ => Err AssertionError
      | None =>
          let* here := path_of rf c in
          let paths := p_paths p ++ [here] in
          let* e := load_e2e_group c None in
          let sp := mkSpec paths false false None e in
          let* x := (if has_tag "SECURED-I-PDU" c then load_secured name c sp else Ok ([], sp)) in
          let* i := (let* m := mk_message 1 false (to_string name) len unused (map a_sig (p_signals p ++ fst x)) true sort in
                     Ok (mkInfo m None false (Some header) (p_cycle p) com [] (p_signals p ++ fst x) (snd x))) in
          Ok (i, paths)
      end.
    (** 921-1115 *)
    Definition load_pdu_step (pdu : node) (next : Z) : result pdu_load :=
      if has_tag "CONTAINER-I-PDU" pdu then
        let* lo := child pdu ["LENGTH"] in
        let* _ := integer_exn lo in
        let* ho := child pdu ["HEADER-TYPE"] in
        let* ht := text_exn ho in
        if is_text "SHORT-HEADER" ht then
          let* cs := children pdu ["CONTAINED-PDU-TRIGGERING-REFS"; "*&CONTAINED-PDU-TRIGGERING"; "&I-PDU"] in
          let* l := mapM (load_contained next) cs in
          Ok (mkPdu [] None (List.concat (map snd l)) (Some (map fst l)))
        else Ok (mkPdu [] None [] None)
      else if has_tag "SECURED-I-PDU" pdu then
        let* pp := payload_of pdu in
        match pp with
        | None => Err AssertionError
        | Some p =>
            let* r := load p next in
            let* here := path_of rf p in
            Ok (mkPdu (p_signals r) (p_cycle r) (p_paths r ++ [here]) (p_contained r))
        end
      else
        let* lo := child pdu ["LENGTH"] in
        let* _ := opt_integer lo in
        let* cyc := cycle_time pdu in
        let* sigs := load_pdu_signals pdu in
        if has_tag "MULTIPLEXED-I-PDU" pdu then
          let* m := load_multiplexed pdu next in
          let '(ms, mc, mp) := m in
          Ok (mkPdu (sigs ++ ms) mc mp None)
        else Ok (mkPdu sigs cyc [] None).
  End Pdu.
  Fixpoint load_pdu (limit : nat) (frame : chars) (pdu : node) (next : Z) : result pdu_load :=
    match limit with O => Err RecursionError | S k => load_pdu_step (load_pdu k frame) frame pdu next end.

  Context (limit : nat).

  (** ** Messages *)
  (** 718-824 with 2306-2337 and 1343-1363 *)
  Definition load_message (bus : chars) (trig : node) : result amessage :=
    let* fo := child trig ["&FRAME"] in
    let* frame := match fo with Some f => Ok f | None => Err ValueError end in
    let* name := name_of frame in
    let* ido := child trig ["IDENTIFIER"] in
    let* frame_id := integer_exn ido in
    let* lo := child frame ["FRAME-LENGTH"] in
    let* len := integer_exn lo in
    let* mo := child trig ["CAN-ADDRESSING-MODE"] in
    let ext := match mo with Some n => is_text "EXTENDED" (n_text n) | None => false end in
    let* com := load_comments frame in
    let* rx := child trig ["CAN-FRAME-RX-BEHAVIOR"] in
    let* tx := child trig ["CAN-FRAME-TX-BEHAVIOR"] in
    let is_fd o := match o with Some n => is_text "CAN-FD" (n_text n) | None => false end in
    let fd := is_fd rx || is_fd tx in
    let* po := child frame ["PDU-TO-FRAME-MAPPINGS"; "&PDU-TO-FRAME-MAPPING"; "&PDU"] in
    match po with
    | None => let* i := new_info (Some bus) frame_id ext fd name len 255 None None None [] no_specifics strict in Ok (mkAMsg i true [])
    | Some pdu =>
        let* ro := child frame ["PDU-TO-FRAME-MAPPINGS"; "&PDU-TO-FRAME-MAPPING"; "PDU-REF"] in
        let* path := match ro with Some r => let* p := absolute_path ns rf r (n_text r) (n_attr r "BASE") in Ok [p] | None => Ok [] end in
        let* p := load_pdu limit name pdu 1 in
        let nm := has_tag "NM-PDU" pdu in
        let general := has_tag "N-PDU" pdu || has_tag "GENERAL-PURPOSE-PDU" pdu || has_tag "GENERAL-PURPOSE-I-PDU" pdu || has_tag "USER-DEFINED-I-PDU" pdu in
        let* e := load_e2e_group pdu None in
        let sp := mkSpec (path ++ p_paths p) nm general None e in
        let* x := (if has_tag "SECURED-I-PDU" pdu then load_secured name pdu sp else Ok ([], sp)) in
        let* unused := unused_bits pdu in
        let* i := new_info (Some bus) frame_id ext fd name len unused None (p_cycle p) com (p_signals p ++ fst x) (snd x) strict in
        Ok (mkAMsg i true (match p_contained p with Some l => l | None => [] end))
    end.
  (** 668-716 *)
  Definition package_messages (package : node) : result (list amessage) :=
    let* cs := children package ["ELEMENTS"; "*&CAN-CLUSTER"] in
    let* l := mapM (fun c =>
      let* bus := name_of c in
      let* ts := children c (loc ["CAN-CLUSTER-VARIANTS"; "*&CAN-CLUSTER-CONDITIONAL"; "PHYSICAL-CHANNELS"; "*&CAN-PHYSICAL-CHANNEL"; "FRAME-TRIGGERINGS"; "*&CAN-FRAME-TRIGGERING"]
                                 ["PHYSICAL-CHANNELS"; "*&PHYSICAL-CHANNEL"; "FRAME-TRIGGERINGSS"; "*&CAN-FRAME-TRIGGERING"]) in
      mapM (load_message bus) ts) cs in
    Ok (List.concat l).

  (** ** Packages *)
  (** The packages below an element: the recursion of 181-287, 519-556, 558-636 and 638-666 over AR-PACKAGES or
      SUB-PACKAGES.  [only] is set where the code looks at AR-PACKAGE elements only. *)
  Definition sub_list (p : node) : option node := n_find (if ar4 then "AR-PACKAGES" else "SUB-PACKAGES") p.
  Fixpoint packages (depth : nat) (only : bool) (list_ : node) : list node :=
    match depth with
    | O => []
    | S k =>
        flat_map (fun p => p :: match sub_list p with Some l => packages k only l | None => [] end)
          (if only then filter (has_tag "AR-PACKAGE") (n_kids list_) else n_kids list_)
    end.
  (** No package is deeper than the tree *)
  Fixpoint depth_of (e : xml) : nat :=
    match e with Elem _ _ _ ks => S ((fix go (l : list (xml * chars)) : nat := match l with [] => O | (k, _) :: r => Nat.max (depth_of k) (go r) end) ks) end.
  Definition all_packages (only : bool) (l : node) : list node := packages (depth_of (snd l)) only l.

  (** 181-287 *)
  Definition cluster_bus (c : node) : result (list abus) :=
    let* name := name_of c in
    let* com := load_comments c in
    if ar4 then
      let* vs := children c ["CAN-CLUSTER-VARIANTS"; "*CAN-CLUSTER-CONDITIONAL"] in
      match vs with
      | [] => Ok []
      | v :: _ =>
          let* _ := child v ["PROTOCOL-VERSION"] in
          let* b := child v ["BAUDRATE"] in
          let* rate := opt_integer b in
          let* f := child v ["CAN-FD-BAUDRATE"] in
          let* fd := opt_integer f in
          Ok [mkBus name com rate fd]
      end
    else
      let* _ := child c ["PROTOCOL-VERSION"] in
      let* b := child c ["SPEED"] in
      let* rate := opt_integer b in
      Ok [mkBus name com rate None].
  Definition package_buses (p : node) : result (list abus) :=
    let* cs := children p ["ELEMENTS"; "*&CAN-CLUSTER"] in
    let* l := mapM cluster_bus cs in Ok (List.concat l).
  (** 519-556 *)
  Definition package_nodes (p : node) : result (list anode) :=
    let* es := children p ["ELEMENTS"; "*ECU-INSTANCE"] in
    mapM (fun e => let* n := name_of e in let* c := load_comments e in Ok (mkANode n c)) es.

  (** ** Senders, receivers and end-to-end protection *)
  Definition mem_text (t : chars) (l : list chars) : bool := existsb (chars_eqb t) l.
  Definition add_text (t : chars) (l : list chars) : list chars := if mem_text t l then l else l ++ [t].
  (** 314-336 followed by a change of all messages found *)
  Definition change_pdu (path : chars) (f : bool -> ainfo -> ainfo) (ms : list amessage) : list amessage :=
    let ch (c : bool) i := if mem_text path (sp_paths (am_spec i)) then f c i else i in
    map (fun m => mkAMsg (ch (match am_contained m with [] => false | _ => true end) (am_info m)) (am_big_header m) (map (ch false) (am_contained m))) ms.
  Definition add_receiver (ecu : chars) (i : ainfo) : ainfo :=
    mkInfo (am_core i) (am_bus i) (am_fd i) (am_header i) (am_cycle i) (am_comments i) (am_senders i)
      (map (fun s => mkASignal (a_sig s) (a_raw_initial s) (a_initial s) (a_raw_invalid s) (a_invalid s) (a_unit s) (a_comments s)
                       (add_text ecu (a_receivers s)) (a_choices s)) (am_signals i)) (am_spec i).
  Definition add_sender (ecu : chars) (i : ainfo) : ainfo :=
    mkInfo (am_core i) (am_bus i) (am_fd i) (am_header i) (am_cycle i) (am_comments i) (add_text ecu (am_senders i)) (am_signals i) (am_spec i).
  Definition set_e2e (e : e2e) (i : ainfo) : ainfo :=
    let s := am_spec i in
    mkInfo (am_core i) (am_bus i) (am_fd i) (am_header i) (am_cycle i) (am_comments i) (am_senders i) (am_signals i)
      (mkSpec (sp_paths s) (sp_nm s) (sp_general s) (sp_secoc s) (Some e)).
  Definition change_nodes (f : bool -> ainfo -> ainfo) (pdus : list node) (ms : list amessage) : result (list amessage) :=
    foldM (fun ms p => let* path := path_of rf p in Ok (change_pdu path f ms)) pdus ms.
  (** 360-392, one group of PDUs of an ECU *)
  Definition ecu_group (ecu : chars) (ms : list amessage) (g : node) : result (list amessage) :=
    let* d := child g ["COMMUNICATION-DIRECTION"] in
    let* dir := text_exn d in
    let* pdus := children g (loc ["I-SIGNAL-I-PDUS"; "*I-SIGNAL-I-PDU-REF-CONDITIONAL"; "&I-SIGNAL-I-PDU"] ["I-PDU-REFS"; "*&I-PDU"]) in
    if is_text "IN" dir then change_nodes (fun _ => add_receiver ecu) pdus ms
    else if is_text "OUT" dir then change_nodes (fun _ => add_sender ecu) pdus ms
    else Ok ms.
  (** 338-392 *)
  Definition ecu_links (ms : list amessage) (e : node) : result (list amessage) :=
    let* o := child e ["SHORT-NAME"] in
    let* ecu := stripped_text o in
    let* gs := children e (loc ["ASSOCIATED-COM-I-PDU-GROUP-REFS"; "*&ASSOCIATED-COM-I-PDU-GROUP"] ["ASSOCIATED-I-PDU-GROUP-REFS"; "*&ASSOCIATED-I-PDU-GROUP"]) in
    foldM (ecu_group ecu) gs ms.
  (** '/'.join(path.split('/')[:-1]) *)
  Definition parent_path (p : chars) : chars := join_with slash (removelast (split_on slash p)).
  (** 416-468, one node of network management *)
  Definition nm_node_links (ms : list amessage) (n : node) : result (list amessage) :=
    let* c := child n ["CONTROLLER-REF"] in
    match c with
    | None => Ok ms
    | Some r =>
        let* t := match n_text r with [] => Err AttributeError | t => Ok t end in
        let* p := resolve ns rf n (parent_path t) None in
        let eo := look_up ns rf p (Some (txt "ECU-INSTANCE")) in
        match eo with
        | None => Ok ms
        | Some e =>
            let* ecu := name_of e in
            let* rx := children n ["RX-NM-PDU-REFS"; "*&RX-NM-PDU"] in
            let* ms := change_nodes (fun _ => add_receiver ecu) rx ms in
            let* tx := children n ["TX-NM-PDU-REFS"; "*&TX-NM-PDU"] in
            change_nodes (fun _ => add_sender ecu) tx ms
        end
    end.
  (** 394-468 *)
  Definition nm_links (ms : list amessage) (p : node) : result (list amessage) :=
    if ar4 then
      let* cs := children p ["ELEMENTS"; "*NM-CONFIG"; "NM-CLUSTERS"; "*CAN-NM-CLUSTER"] in
      foldM (fun ms c => let* ns_ := children c ["NM-NODES"; "*CAN-NM-NODE"] in foldM nm_node_links ns_ ms) cs ms
    else Ok ms.
  Definition package_links (ms : list amessage) (p : node) : result (list amessage) :=
    let* es := children p ["ELEMENTS"; "*ECU-INSTANCE"] in
    let* ms := foldM ecu_links es ms in
    nm_links ms p.
  (** 290-312; here the lists of packages are found with [children] *)
  Fixpoint links (depth : nat) (list_ : option node) (ms : list amessage) : result (list amessage) :=
    match list_ with
    | None => Ok ms
    | Some l =>
        match depth with
        | O => Err RecursionError
        | S k =>
            let* ps := children l ["*AR-PACKAGE"] in
            foldM (fun ms p =>
                     let* ms := package_links ms p in
                     let* s := child p [if ar4 then "AR-PACKAGES" else "SUB-PACKAGES"] in
                     links k s ms) ps ms
        end
    end.
  (** 470-517: the packages below one with a system are not looked at *)
  Fixpoint system_order (depth : nat) (list_ : node) (ms : list amessage) : result (list amessage) :=
    match depth with
    | O => Ok ms
    | S k =>
        foldM (fun ms p =>
                 let* s := child p ["ELEMENTS"; "SYSTEM"] in
                 match s with
                 | None => match sub_list p with Some l => system_order k l ms | None => Ok ms end
                 | Some s =>
                     let* o := child s ["CONTAINER-I-PDU-HEADER-BYTE-ORDER"] in
                     let big := match o with Some n => negb (is_text "MOST-SIGNIFICANT-BYTE-LAST" (n_text n)) | None => true end in
                     Ok (map (fun m => match am_contained m with [] => m | _ => mkAMsg (am_info m) big (am_contained m) end) ms)
                 end) (n_kids list_) ms
    end.
  (** 576-624 *)
  Definition protect (ms : list amessage) (p : node) : result (list amessage) :=
    let* po := child p ["END-TO-END-PROFILE"] in
    match po with
    | None => Ok ms
    | Some prof =>
        let* c := child prof ["CATEGORY"] in
        let* ds := children prof ["DATA-IDS"; "*DATA-ID"] in
        let* ids := mapM (fun d => integer (n_text d)) ds in
        let* pdus := children p ["END-TO-END-PROTECTION-I-SIGNAL-I-PDUS"; "*END-TO-END-PROTECTION-I-SIGNAL-I-PDU"; "&I-SIGNAL-I-PDU"] in
        change_nodes (fun is_container i =>
                        if is_container then i
                        else set_e2e (mkE2E (opt_text c) ids (match sp_secoc (am_spec i) with Some s => so_payload s | None => m_length (am_core i) end)) i) pdus ms
    end.
  Definition package_protect (ms : list amessage) (p : node) : result (list amessage) :=
    let* l := children p ["ELEMENTS"; "*END-TO-END-PROTECTION-SET"; "END-TO-END-PROTECTIONS"; "*END-TO-END-PROTECTION"] in
    foldM protect l ms.

  (** 138-179 *)
  Definition load_database (root : node) : result adatabase :=
    match n_find (if ar4 then "AR-PACKAGES" else "TOP-LEVEL-PACKAGES") root with
    | None => Err TypeError
    | Some top =>
        let all := all_packages false top in
        let* buses := mapM package_buses all in
        let* nodes := mapM package_nodes all in
        let* msgs := mapM package_messages (all_packages true top) in
        let ms := List.concat msgs in
        let* ms := links limit (Some top) ms in
        let* ms := system_order (depth_of (snd top)) top ms in
        let* ms := foldM package_protect all ms in
        Ok (mkADb (List.concat buses) (List.concat nodes) ms ver)
    end.
End Load.

(** system_loader.py:27-98 followed by 138-179 *)
Definition load_system (from_text : chars -> option spec_float) (from_hex : chars -> result spec_float) (strict : bool) (sort : sort_arg) (limit : nat) (root : xml)
  : result adatabase :=
  let* ns := root_namespace (x_tag root) in
  let* t := version_text ns in
  let* ver := read_version t in
  if (fst (fst ver) =? 4) || (fst (fst ver) =? 3) then
    let* rf := reference_dicts ns root in
    load_database from_text from_hex ns rf ver strict sort limit ([], root)
  else Err ValueError.
