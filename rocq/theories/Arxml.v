(** Arxml: the parts of src/cantools/database/can/formats/arxml that read an ARXML tree: the version, the references
    between elements and the locations that follow them (system_loader.py), and numbers (utils.py).

    Simplifications: a tree is what xml.etree gives for a text, its tags are of the form {namespace}NAME; a text None is
    the empty list (xml.etree gives None for every element without text).  Elements are told apart by their position in
    the tree, as Python tells objects apart.  The limit of Python's recursion is not reached by walking through the tree.
    float() and float.fromhex() of a text are parameters; int() has no limit on the number of digits, and only ASCII
    texts are considered.  The texts of exceptions and the log are left out. *)
From Coq Require Import Ascii Floats.SpecFloat.
From Verif Require Import Base PyNum CSource CNames Regex DbcToken Logreader DecodeCmd Xml.
Local Open Scope string_scope.
Local Open Scope Z_scope.
Local Open Scope list_scope.

(** ** Texts *)
(** str.split(c) and c.join(...) *)
Fixpoint split_on (c : ascii) (l : chars) : list chars :=
  match l with
  | [] => [[]]
  | x :: r =>
      if Ascii.eqb x c then [] :: split_on c r
      else match split_on c r with w :: ws => (x :: w) :: ws | [] => [[x]] end
  end.
Fixpoint join_with (c : ascii) (l : list chars) : chars :=
  match l with [] => [] | [w] => w | w :: r => w ++ c :: join_with c r end.
Definition slash : ascii := "/".
Definition starts_with_slash (l : chars) : bool := match l with c :: _ => Ascii.eqb c slash | [] => false end.
Definition lower_text (l : chars) : chars := map to_lower l.
Definition is_text (t : string) (l : chars) : bool := chars_eqb l (txt t).

(** ** Numbers: utils.py:4-66 *)
Definition digit_of (c : ascii) : option Z :=
  if is_digit c then Some (Z.of_N (N_of_ascii c) - 48)
  else if is_lower c then Some (Z.of_N (N_of_ascii c) - 87) else None.
(** Digits of a base, with single underscores between them, as int() reads them *)
Fixpoint read_digits (base acc : Z) (l : chars) : option Z :=
  match l with
  | [] => None
  | c :: r =>
      match digit_of c with
      | None => None
      | Some d =>
          if d <? base then
            match r with
            | [] => Some (base * acc + d)
            | c' :: r' => if Ascii.eqb c' underscore then read_digits base (base * acc + d) r' else read_digits base (base * acc + d) r
            end
          else None
      end
  end.
Definition skip_underscore (l : chars) : chars := match l with c :: r => if Ascii.eqb c underscore then r else l | [] => [] end.
(** int(text, 0) without sign, for a text in lower case *)
Definition int0_body (l : chars) : option Z :=
  match l with
  | "0"%char :: "x"%char :: r => read_digits 16 0 (skip_underscore r)
  | "0"%char :: "o"%char :: r => read_digits 8 0 (skip_underscore r)
  | "0"%char :: "b"%char :: r => read_digits 2 0 (skip_underscore r)
  | "0"%char :: _ => match read_digits 10 0 l with Some 0 => Some 0 | _ => None end
  | _ => read_digits 10 0 l
  end.
Definition int0 (l : chars) : option Z :=
  match l with
  | "-"%char :: r => option_map Z.opp (int0_body r)
  | "+"%char :: r => int0_body r
  | _ => int0_body l
  end.
Definition is_hex_prefixed (l : chars) : bool := match l with "0"%char :: "x"%char :: _ => true | _ => false end.
Definition leads_octal (l : chars) : bool := match l with "0"%char :: c :: _ => is_digit c | _ => false end.

Section Number.
  Context (from_text : chars -> option spec_float) (from_hex : chars -> result spec_float).
  (** utils.py:18-55, before the check for floats *)
  Definition number_body (s : chars) : result num :=
    if is_text "true" s then Ok (NInt 1)
    else if is_text "false" s then Ok (NInt 0)
    else if leads_octal s then match read_digits 8 0 s with Some z => Ok (NInt z) | None => Err ValueError end
    else match int0 s with
         | Some z => Ok (NInt z)
         | None =>
             if is_hex_prefixed s then let* f := from_hex s in Ok (NFlt f)
             else match from_text s with Some f => Ok (NFlt f) | None => Err ValueError end
         end.
  (** utils.py:4-66 with allow_float=True; the text None has no method strip *)
  Definition number (t : chars) : result num :=
    match t with
    | [] => Err AttributeError
    | _ => match lower_text (strip_space t) with [] => Ok (NInt 0) | s => number_body s end
    end.
  (** utils.py:4-66 with allow_float=False *)
  Definition integer (t : chars) : result Z :=
    let* n := number t in
    let* z := py_int n in
    if py_eq n (NInt z) then Ok z else Err ValueError.
End Number.

(** ** The version: system_loader.py:35-96 *)
Definition version := (Z * Z * Z)%type.
Definition digits_int (l : chars) : result Z :=
  match l with [] => Err ValueError | _ => if forallb is_digit l then Ok (fold_left (fun a c => 10 * a + (Z.of_N (N_of_ascii c) - 48)) l 0) else Err ValueError end.
(** system_loader.py:80-92: up to three numbers *)
Definition read_version (l : chars) : result version :=
  match split_on "." l with
  | [a] => let* x := digits_int a in Ok (x, 0, 0)
  | [a; b] => let* x := digits_int a in let* y := digits_int b in Ok (x, y, 0)
  | [a; b; c] => let* x := digits_int a in let* y := digits_int b in let* z := digits_int c in Ok (x, y, z)
  | _ => Err ValueError
  end.
Definition version_char (c : ascii) : bool := is_digit c || Ascii.eqb c ".".
(** The part before .DAI.[0-9] at the end of a text *)
Definition before_dai (l : chars) : option chars :=
  match rev l with
  | d :: "."%char :: "I"%char :: "A"%char :: "D"%char :: "."%char :: r => if is_digit d then Some (rev r) else None
  | _ => None
  end.
(** system_loader.py:45-78 *)
Definition version_text (ns : chars) : result chars :=
  match after (txt "http://autosar.org/schema/r") ns with
  | Some v => match v with "4"%char :: "."%char :: _ => if forallb version_char v then Ok v else Err ValueError | _ => Err ValueError end
  | None =>
      match after (txt "http://autosar.org/") ns with
      | None => Err ValueError
      | Some v =>
          match v with
          | "3"%char :: "."%char :: _ =>
              if forallb version_char v then Ok v
              else match before_dai v with Some w => if forallb version_char w then Ok w else Err ValueError | None => Err ValueError end
          | _ => match before_dai v with Some w => if forallb version_char w then Ok w else Err ValueError | None => Err ValueError end
          end
      end
  end.
(** system_loader.py:35-41: the namespace of the tag of the root *)
Definition root_namespace (tag : chars) : result chars :=
  match tag with
  | "{"%char :: r =>
      match rev r with
      | "R"%char :: "A"%char :: "S"%char :: "O"%char :: "T"%char :: "U"%char :: "A"%char :: "}"%char :: n => Ok (rev n)
      | _ => Err ValueError
      end
  | _ => Err ValueError
  end.
(** system_loader.py:100-136; the code asks for a major version only *)
Definition newer (v : version) (major : Z) : bool := let '(x, _, _) := v in major <=? x.

(** ** Elements and references *)
(** An element: its position (the indices of the children that lead to it) and itself *)
Definition node : Type := list nat * xml.
Definition n_tag (n : node) : chars := x_tag (snd n).
Definition n_text (n : node) : chars := x_text (snd n).
Definition n_attr (n : node) (a : string) : option chars := dget chars_eqb (x_attrs (snd n)) (txt a).
Fixpoint number_from {A} (i : nat) (l : list A) : list (nat * A) := match l with [] => [] | x :: r => (i, x) :: number_from (S i) r end.
(** for child in elem *)
Definition n_kids (n : node) : list node := map (fun p => (fst n ++ [fst p], snd p)) (number_from 0 (x_kids (snd n))).
Definition pos_eqb (a b : list nat) : bool := if list_eq_dec Nat.eq_dec a b then true else false.

(** The dictionaries of system_loader.py:2099-2103 *)
Record refs := mkRefs {
  r_path : list (list nat * chars);                  (* _node_to_arxml_path *)
  r_node : list (chars * node);                      (* _arxml_path_to_node *)
  r_default : list (chars * chars);                  (* _package_default_refbase_path *)
  r_bases : list (chars * list (chars * chars))      (* _package_refbase_paths *)
}.
Definition no_refs : refs := mkRefs [] [] [] [].
(** f'{x.text}': a missing text is written None *)
Definition shown (t : chars) : chars := match t with [] => txt "None" | _ => t end.

Section Tree.
  Context (ns : chars).
  Definition tagged (t : string) : chars := "{"%char :: ns ++ "}"%char :: txt t.
  Definition has_tag (t : string) (n : node) : bool := chars_eqb (n_tag n) (tagged t).
  (** elem.find('./ns:TAG') *)
  Definition n_find (t : string) (n : node) : option node := match filter (has_tag t) (n_kids n) with k :: _ => Some k | [] => None end.
  (** elem.find('./ns:TAG').text.strip(): fails if there is no such element or it has no text *)
  Definition stripped_text (o : option node) : result chars :=
    match o with Some k => match n_text k with [] => Err AttributeError | t => Ok (strip_space t) end | None => Err AttributeError end.
  (** A flag that may be missing: system_loader.py:2139-2142 *)
  Definition read_flag (o : option node) : result bool :=
    match o with None => Ok false | Some _ => let* t := stripped_text o in Ok (is_text "true" (lower_text t)) end.

  (** system_loader.py:2132-2173 *)
  Definition add_base (n : node) (pkg : chars) (st : refs) : result refs :=
    let* label := stripped_text (n_find "SHORT-LABEL" n) in
    let* target := stripped_text (n_find "PACKAGE-REF" n) in
    let* is_default := read_flag (n_find "IS-DEFAULT" n) in
    let* dflt := (if is_default then
                    match dget chars_eqb (r_default st) pkg with
                    | Some _ => Err ValueError
                    | None => Ok (dset chars_eqb (r_default st) pkg target)
                    end
                  else Ok (r_default st)) in
    let* is_global := read_flag (n_find "IS-GLOBAL" n) in
    if is_global then Err ValueError
    else
      let known := match dget chars_eqb (r_bases st) pkg with Some d => d | None => [] end in
      match dget chars_eqb known label with
      | Some _ => Err ValueError
      | None => Ok (mkRefs (r_path st) (r_node st) dflt (dset chars_eqb (r_bases st) pkg (dset chars_eqb known label target)))
      end.
  (** system_loader.py:2112-2130: the paths of an element and of its package *)
  Definition enter_path (n : node) (path : chars) : chars :=
    match n_find "SHORT-NAME" n with Some k => path ++ slash :: shown (n_text k) | None => path end.
  Definition enter_package (n : node) (pkg : chars) : chars :=
    if has_tag "AR-PACKAGE" n then pkg ++ slash :: match n_find "SHORT-NAME" n with Some k => shown (n_text k) | None => txt "None" end else pkg.
  (** system_loader.py:2105-2173 for one element; [path] and [pkg] are those of the parent *)
  Definition add_one (n : node) (path pkg : chars) (st : refs) : result refs :=
    let here := enter_path n path in
    let* st1 := match n_find "SHORT-NAME" n with
                | None => Ok st
                | Some _ =>
                    match dget chars_eqb (r_node st) here with
                    | Some _ => Err ValueError
                    | None => Ok (mkRefs (r_path st) (dset chars_eqb (r_node st) here n) (r_default st) (r_bases st))
                    end
                end in
    let st2 := mkRefs (dset pos_eqb (r_path st1) (fst n) here) (r_node st1) (r_default st1) (r_bases st1) in
    if has_tag "REFERENCE-BASE" n then add_base n (enter_package n pkg) st2 else Ok st2.
  (** system_loader.py:2105-2177 [add_sub_references] *)
  Fixpoint add_sub (pos : list nat) (e : xml) (path pkg : chars) (st : refs) : result refs :=
    let* st' := add_one (pos, e) path pkg st in
    match e with
    | Elem _ _ _ ks =>
        (fix go (i : nat) (l : list (xml * chars)) (st : refs) : result refs :=
           match l with
           | [] => Ok st
           | (k, _) :: r => let* s := add_sub (pos ++ [i]) k (enter_path (pos, e) path) (enter_package (pos, e) pkg) st in go (S i) r s
           end) O ks st'
    end.
  (** system_loader.py:2098-2180 *)
  Definition reference_dicts (root : xml) : result refs := add_sub [] root [] [] no_refs.

  Context (rf : refs).
  (** self._node_to_arxml_path[elem] *)
  Definition path_of (n : node) : result chars := match dget pos_eqb (r_path rf) (fst n) with Some p => Ok p | None => Err KeyError end.
  (** system_loader.py:2027-2059: the closest package with a reference base *)
  Fixpoint closest (atoms : list chars) (base : option chars) (i : nat) : option chars :=
    match i with
    | O => None
    | S k =>
        let p := join_with slash (firstn i atoms) in
        let skip := match dget chars_eqb (r_node rf) p with Some n => negb (has_tag "AR-PACKAGE" n) | None => false end in
        if skip then closest atoms base k
        else match match base with
                   | None => dget chars_eqb (r_default rf) p
                   | Some b => match dget chars_eqb (r_bases rf) p with Some d => dget chars_eqb d b | None => None end
                   end with
             | Some t => Some t
             | None => closest atoms base k
             end
    end.
  (** system_loader.py:2005-2065 for a text *)
  Definition resolve (n : node) (path : chars) (base : option chars) : result chars :=
    if starts_with_slash path then Ok path
    else
      let* p := path_of n in
      let atoms := split_on slash p in
      match closest atoms base (List.length atoms) with
      | Some t => Ok (t ++ slash :: path)
      | None => Err ValueError
      end.
  (** system_loader.py:2005-2065 for the text of an element; None has no method startswith *)
  Definition absolute_path (n : node) (path : chars) (base : option chars) : result chars :=
    match path with [] => Err AttributeError | _ => resolve n path base end.
  (** system_loader.py:2085-2095 *)
  Definition look_up (p : chars) (dest : option chars) : option node :=
    match dget chars_eqb (r_node rf) p with
    | None => None
    | Some m => match dest with Some d => if chars_eqb (n_tag m) ("{"%char :: ns ++ "}"%char :: d) then Some m else None | None => Some m end
    end.
  (** system_loader.py:2067-2095 *)
  Definition follow (n : node) (path : chars) (dest base : option chars) : result (option node) :=
    let* p := absolute_path n path base in Ok (look_up p dest).

  (** system_loader.py:2233-2283: one level; an atom starts with * if there may be many elements, and with & if it may
      be a reference, which is not looked at *)
  Definition marks (a : string) : chars := firstn 2 (txt a).
  Definition marked (c : ascii) (a : string) : bool := existsb (Ascii.eqb c) (marks a).
  Definition atom_name (a : string) : chars :=
    let l := if marked "&" a then skipn 1 (txt a) else txt a in if marked "*" a then skipn 1 l else l.
  Definition one_child (n : node) (name : chars) (c : node) : result (list node) :=
    if chars_eqb (n_tag c) ("{"%char :: ns ++ "}"%char :: name) then Ok [c]
    else if chars_eqb (n_tag c) ("{"%char :: ns ++ "}"%char :: name ++ txt "-REF") then
      let* o := follow n (n_text c) (n_attr c "DEST") (n_attr c "BASE") in
      match o with Some m => Ok [m] | None => Err ValueError end
    else Ok [].
  Definition level (a : string) (n : node) : result (list node) :=
    let* l := mapM (one_child n (atom_name a)) (n_kids n) in
    let l := List.concat l in
    if negb (marked "*" a) && (1 <? zlen l) then Err ValueError else Ok l.
  Fixpoint children_of (bases : list node) (location : list string) : result (list node) :=
    match location with
    | [] => Ok bases
    | a :: r => let* l := mapM (level a) bases in children_of (List.concat l) r
    end.
  (** system_loader.py:2182-2285 for one element *)
  Definition children (n : node) (location : list string) : result (list node) := children_of [n] location.
  (** system_loader.py:2287-2304 *)
  Definition child (n : node) (location : list string) : result (option node) :=
    let* l := children n location in
    match l with [] => Ok None | [m] => Ok (Some m) | _ => Err ValueError end.
End Tree.
