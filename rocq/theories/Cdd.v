(** Cdd: model of src/cantools/database/diagnostics/formats/cdd.py and database.py.

    Simplifications: the XML reader is [Xml.read], which knows no comments, declarations and document types; the loader
    itself works on any element tree.  int() and float() of a text are parameters.  The names of data types, encodings and
    logging are left out: nothing depends on them. *)
From Coq Require Import Ascii Floats.SpecFloat.
From Verif Require Import Base PyNum Conversion Signal Formats Did CSource CNames Regex DbcToken Xml.
Local Open Scope string_scope.
Local Open Scope Z_scope.
Local Open Scope list_scope.

(** xml.etree: Element.findall for one tag and for a path, find, findtext, attrib *)
Definition findall1 (t : string) (e : xml) : list xml := filter (fun c => chars_eqb (x_tag c) (txt t)) (x_kids e).
Definition findall (path : list string) (e : xml) : list xml := fold_left (fun es t => flat_map (findall1 t) es) path [e].
Definition first {A} (l : list A) : option A := match l with x :: _ => Some x | [] => None end.
Definition find (path : list string) (e : xml) : option xml := first (findall path e).
(** The path NAME/TUV[1] selects the first TUV of every NAME *)
Definition findtext_tuv (t : string) (e : xml) : option chars :=
  option_map x_text (first (flat_map (fun n => match findall1 "TUV" n with x :: _ => [x] | [] => [] end) (findall1 t e))).
Definition findtext (path : list string) (e : xml) : option chars := option_map x_text (find path e).
Definition attr (e : xml) (n : string) : option chars := dget chars_eqb (x_attrs e) (txt n).
Definition attr_exn (e : xml) (n : string) : result chars := match attr e n with Some v => Ok v | None => Err KeyError end.
(** str.strip('()') *)
Fixpoint lstrip (l : chars) : chars := match l with c :: r => if Ascii.eqb c "(" || Ascii.eqb c ")" then lstrip r else l | [] => [] end.
Definition strip_parens (l : chars) : chars := rev (lstrip (rev (lstrip l))).
Definition text_of (l : chars) : string := string_of_list_ascii l.

Section Cdd.
  Context (read_int : chars -> option Z) (read_float : chars -> option spec_float).
  Definition int_of (t : chars) : result Z := match read_int t with Some z => Ok z | None => Err ValueError end.
  Definition float_of (t : chars) : result num := match read_float t with Some f => Ok (NFlt f) | None => Err ValueError end.

  (** cdd.py:18-42 [DataType] *)
  Record data_type := mkType {
    t_bits : Z; t_min : option Z; t_max : option Z; t_choices : option choices_t; t_big : bool; t_unit : option chars;
    t_factor : num; t_offset : num }.

  (** cdd.py:45-61 [_load_choices] *)
  Fixpoint load_textmaps (l : list xml) (choices : choices_t) : result choices_t :=
    match l with
    | [] => Ok choices
    | c :: r =>
        let* s := attr_exn c "s" in
        let* start := int_of (strip_parens s) in
        let* e := attr_exn c "e" in
        let* stop := int_of (strip_parens e) in
        if start =? stop then
          match findtext_tuv "TEXT" c with
          | None => Err ValueError
          | Some t => load_textmaps r (zset choices start (ChStr (text_of t)))
          end
        else load_textmaps r choices
    end.
  Definition load_choices (e : xml) : result (option choices_t) :=
    let* l := load_textmaps (findall1 "TEXTMAP" e) [] in Ok match l with [] => None | _ => Some l end.

  Definition opt_int (o : option chars) : result (option Z) :=
    match o with None => Ok None | Some t => let* z := int_of t in Ok (Some z) end.
  (** cdd.py:76-141, the loop body of [_load_data_types] *)
  Definition load_type (e : xml) : result (chars * data_type) :=
    let* _ := match findtext_tuv "NAME" e with None => Err ValueError | Some n => Ok n end in
    let* id := attr_exn e "id" in
    let* c := match find ["CVALUETYPE"] e with
              | None => Ok (0, None, None, true)
              | Some c =>
                  let* bl := opt_int (attr c "bl") in
                  let* mn := opt_int (attr c "minsz") in
                  let* mx := opt_int (attr c "maxsz") in
                  let* bo := attr_exn c "bo" in
                  let* big := (if chars_eqb bo (txt "21") then Ok true else if chars_eqb bo (txt "12") then Ok false else Err ParseError) in
                  Ok (match bl with Some z => z | None => 0 end, mn, mx, big)
              end in
    let '(bits, mn, mx, big) := c in
    let unit := findtext ["PVALUETYPE"; "UNIT"] e in
    let* choices := load_choices e in
    let* fo := match find ["COMP"] e with
               | None => Ok (NInt 1, NInt 0)
               | Some c =>
                   let* f := attr_exn c "f" in
                   let* factor := float_of f in
                   let* o := attr_exn c "o" in
                   let* offset := float_of o in
                   Ok (factor, offset)
               end in
    if bits =? 0 then Err RuntimeError
    else Ok (id, mkType bits mn mx choices big unit (fst fo) (snd fo)).
  (** cdd.py:64-143 [_load_data_types]; DATATYPES/* are all children *)
  Definition types := list (chars * data_type).
  Definition load_types (doc : xml) : result types :=
    let* l := mapM load_type (flat_map x_kids (findall1 "DATATYPES" doc)) in
    Ok (fold_left (fun d p => dset chars_eqb d (fst p) (snd p)) l []).

  (** A data object: its coding attributes, and its unit *)
  Record data := mkData { d_signal : signal; d_unit : option chars }.
  (** cdd.py:146-177 [_load_data_element] *)
  Definition load_data (ts : types) (offset : Z) (e : xml) : result data :=
    let* ref := attr_exn e "dtref" in
    let* t := match dget chars_eqb ts ref with Some t => Ok t | None => Err KeyError end in
    let start := cdd_offset_to_dbc_start_bit offset (t_bits t) (t_big t) in
    let* conv := factory (t_factor t) (t_offset t) (t_choices t) false in
    let* name := match findtext ["QUAL"] e with Some n => Ok n | None => Err ValueError end in
    Ok (mkData (mkSignal (text_of name) start (t_bits t) (t_big t) false conv (option_map NInt (t_min t)) (option_map NInt (t_max t)) false None None) (t_unit t)).
  (** cdd.py:197-204, the loop *)
  Fixpoint load_datas (ts : types) (offset : Z) (l : list xml) : result (list data * Z) :=
    match l with
    | [] => Ok ([], offset)
    | e :: r =>
        let* d := load_data ts offset e in
        let* x := load_datas ts (offset + s_length (d_signal d)) r in
        Ok (d :: fst x, snd x)
    end.

  (** The attributes of a Did *)
  Record cdd_did := mkCddDid { c_id : Z; c_name : string; c_datas : list data; c_did : did }.
  (** cdd.py:180-218 [_load_did_element] *)
  Definition ref_objects (lib : list (chars * xml)) (r : xml) : list xml :=
    match attr r "didRef" with
    | Some n => match dget chars_eqb lib n with Some d => findall ["STRUCTURE"; "DATAOBJ"] d | None => [] end
    | None => []
    end.
  Definition data_objects (lib : list (chars * xml)) (e : xml) : list xml :=
    findall ["SIMPLECOMPCONT"; "DATAOBJ"] e ++ findall ["SIMPLECOMPCONT"; "UNION"; "STRUCT"; "DATAOBJ"] e ++
    flat_map (ref_objects lib) (findall ["SIMPLECOMPCONT"; "DIDDATAREF"] e).
  Definition load_did (ts : types) (lib : list (chars * xml)) (e : xml) : result cdd_did :=
    let* x := load_datas ts 0 (data_objects lib e) in
    let* sv := match find ["STATICVALUE"] e with Some s => Ok s | None => Err KeyError end in
    let* v := attr_exn sv "v" in
    let* id := int_of v in
    let* name := match findtext ["QUAL"] e with Some n => Ok n | None => Err ValueError end in
    let len := (snd x + 7) / 8 in
    let* m := mk_did len (map d_signal (fst x)) in
    Ok (mkCddDid id (text_of name) (fst x) m).

  (** cdd.py:221-233 [_load_did_data_refs] *)
  Definition load_lib (doc : xml) : result (list (chars * xml)) :=
    match find ["DIDS"] doc with
    | None => Ok []
    | Some d =>
        let* l := mapM (fun e => let* id := attr_exn e "id" in Ok (id, e)) (findall1 "DID" d) in
        Ok (fold_left (fun m p => dset chars_eqb m (fst p) (snd p)) l [])
    end.
  (** cdd.py:236-259 [load_string], after the XML reader *)
  Definition load_tree (root : xml) : result (list cdd_did) :=
    let* doc := match find ["ECUDOC"] root with Some d => Ok d | None => Err KeyError end in
    let* ts := load_types doc in
    let* lib := load_lib doc in
    let* ecu := match findall1 "ECU" doc with e :: _ => Ok e | [] => Err IndexError end in
    let* var := match find ["VAR"] ecu with Some v => Ok v | None => Err KeyError end in
    mapM (load_did ts lib) (flat_map (findall1 "DIAGINST") (findall1 "DIAGCLASS" var)).
  Definition load_string (t : chars) : result (list cdd_did) :=
    match read t with None => Err ParseError | Some root => load_tree root end.

  (** database.py:22-26, 65-84 and 100-114: the two dictionaries that [refresh] builds *)
  Record diag_db := mkDiag { g_dids : list cdd_did; g_by_name : list (string * cdd_did); g_by_id : list (Z * cdd_did) }.
  Definition refresh (l : list cdd_did) : diag_db :=
    mkDiag l (fold_left (fun d x => sset d (c_name x) x) l []) (fold_left (fun d x => zset d (c_id x) x) l []).
  (** database.py:55-63 [add_cdd_string] *)
  Definition add_cdd_string (t : chars) : result diag_db := let* l := load_string t in Ok (refresh l).
  (** database.py:86-98 *)
  Definition get_did_by_name (db : diag_db) (n : string) : result cdd_did := match sget (g_by_name db) n with Some x => Ok x | None => Err KeyError end.
  Definition get_did_by_identifier (db : diag_db) (id : Z) : result cdd_did := match zget (g_by_id db) id with Some x => Ok x | None => Err KeyError end.
End Cdd.
