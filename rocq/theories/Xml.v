(** Xml: XML documents as xml.etree.ElementTree writes and reads them.  This is library code (Python's
    xml/etree/ElementTree.py and expat); it is modelled as far as the files that kcd.py writes need it.
    A text or tail that is None is the empty text here: the writer treats both alike, and the reader never
    makes an empty one.  Not modelled: comments, processing instructions, document types, prefixes of namespaces
    (a tag or name with a prefix is kept as it is) and the check that no attribute is given twice. *)
From Coq Require Import Ascii.
From Verif Require Import Base CSource CNames Regex DecText DbcToken.
Local Open Scope string_scope.
Local Open Scope Z_scope.
Local Open Scope list_scope.

(** An element: tag, attributes, text, and its children with the text that follows each of them. *)
Inductive xml := Elem (tag : chars) (attrs : list (chars * chars)) (text : chars) (kids : list (xml * chars)).
Definition x_tag (e : xml) : chars := match e with Elem t _ _ _ => t end.
Definition x_attrs (e : xml) : list (chars * chars) := match e with Elem _ a _ _ => a end.
Definition x_text (e : xml) : chars := match e with Elem _ _ x _ => x end.
Definition x_kids (e : xml) : list xml := match e with Elem _ _ _ k => map fst k end.

(** ** Writing *)
Definition tab : ascii := "009".
Definition lf : ascii := "010".
Definition cr : ascii := "013".
(** ElementTree._escape_cdata *)
Definition esc_text (c : ascii) : chars :=
  if Ascii.eqb c "&" then txt "&amp;" else if Ascii.eqb c "<" then txt "&lt;" else if Ascii.eqb c ">" then txt "&gt;" else [c].
(** ElementTree._escape_attrib *)
Definition esc_attr (c : ascii) : chars :=
  if Ascii.eqb c quote then txt "&quot;" else if Ascii.eqb c cr then txt "&#13;" else if Ascii.eqb c lf then txt "&#10;"
  else if Ascii.eqb c tab then txt "&#09;" else esc_text c.
Definition write_attr (p : chars * chars) : chars := " "%char :: fst p ++ txt "=" ++ quote :: flat_map esc_attr (snd p) ++ [quote].
(** ElementTree._serialize_xml without namespaces: tags and attribute names are plain texts *)
Fixpoint write (e : xml) : chars :=
  match e with
  | Elem tag attrs text kids =>
      "<"%char :: tag ++ flat_map write_attr attrs ++
      match text, kids with
      | [], [] => txt " />"
      | _, _ => txt ">" ++ flat_map esc_text text ++
                (fix go (l : list (xml * chars)) : chars :=
                   match l with [] => [] | (e, tail) :: r => write e ++ flat_map esc_text tail ++ go r end) kids ++
                txt "</" ++ tag ++ txt ">"
      end
  end.

(** ** Reading *)
(** The characters of an XML document *)
Definition legal (c : ascii) : bool := (32 <=? Z.of_N (N_of_ascii c)) || Ascii.eqb c tab || Ascii.eqb c lf || Ascii.eqb c cr.
Definition is_blank (c : ascii) : bool := Ascii.eqb c " " || Ascii.eqb c tab || Ascii.eqb c lf || Ascii.eqb c cr.
(** The characters of names; the rule for the first one is left out. *)
Definition name_char (c : ascii) : bool := is_word c || Ascii.eqb c ":" || Ascii.eqb c "-" || Ascii.eqb c ".".
(** Line ends: XML 1.0, 2.11 *)
Fixpoint line_ends (l : chars) : chars :=
  match l with
  | [] => []
  | c :: r => if Ascii.eqb c cr then match r with
                                     | d :: r' => if Ascii.eqb d lf then lf :: line_ends r' else lf :: line_ends r
                                     | [] => [lf]
                                     end
              else c :: line_ends r
  end.
(** References: the predefined entities and decimal character references *)
Definition reference (n : chars) : option ascii :=
  if chars_eqb n (txt "amp") then Some "&"%char else if chars_eqb n (txt "lt") then Some "<"%char
  else if chars_eqb n (txt "gt") then Some ">"%char else if chars_eqb n (txt "quot") then Some quote
  else if chars_eqb n (txt "apos") then Some "'"%char
  else match n with
       | c :: d => if Ascii.eqb c "#" then match unsigned_text d with
                                           | Some z => let a := ascii_of_N (Z.to_N z) in if (z <? 256) && legal a then Some a else None
                                           | None => None
                                           end
                   else None
       | [] => None
       end.
(** [st] is the part of a reference that has been read. *)
Fixpoint references (st : option chars) (l : chars) : option chars :=
  match l, st with
  | [], None => Some []
  | [], Some _ => None
  | c :: r, None => if Ascii.eqb c "&" then references (Some []) r else option_map (cons c) (references None r)
  | c :: r, Some n => if Ascii.eqb c ";" then match reference n with Some x => option_map (cons x) (references None r) | None => None end
                      else references (Some (n ++ [c])) r
  end.
Definition read_text (l : chars) : option chars := references None (line_ends l).
(** Attribute values: XML 1.0, 3.3.3 *)
Definition read_value (l : chars) : option chars :=
  if existsb (Ascii.eqb "<") l then None
  else references None (map (fun c => if is_blank c then " "%char else c) (line_ends l)).

Fixpoint span (p : ascii -> bool) (l : chars) : chars * chars :=
  match l with
  | [] => ([], [])
  | c :: r => if p c then let (a, b) := span p r in (c :: a, b) else ([], l)
  end.
Definition until (c : ascii) (l : chars) : chars * chars := span (fun x => negb (Ascii.eqb x c)) l.

Inductive event := EStart (tag : chars) (attrs : list (chars * chars)) | EEmpty (tag : chars) (attrs : list (chars * chars))
                 | EEnd (tag : chars) | EText (text : chars).

(** The rest after a text that must come next *)
Fixpoint after (p l : chars) : option chars :=
  match p, l with
  | [], _ => Some l
  | c :: p', d :: l' => if Ascii.eqb c d then after p' l' else None
  | _ :: _, [] => None
  end.
(** The attributes of a start tag, up to its end; the flag says that the element is empty. *)
Fixpoint read_attrs (fuel : nat) (l : chars) : option (list (chars * chars) * bool * chars) :=
  match fuel with
  | O => None
  | S f =>
      let l := snd (span is_blank l) in
      match after (txt ">") l with
      | Some r => Some ([], false, r)
      | None =>
      match after (txt "/>") l with
      | Some r => Some ([], true, r)
      | None =>
          let (n, r) := span name_char l in
          match n, after (txt "=" ++ [quote]) r with
          | _ :: _, Some r =>
              let (v, r) := until quote r in
              match r, read_value v with
              | _ :: r, Some v => match read_attrs f r with Some (a, e, r) => Some ((n, v) :: a, e, r) | None => None end
              | _, _ => None
              end
          | _, _ => None
          end
      end end
  end.
Fixpoint read_events (fuel : nat) (l : chars) : option (list event) :=
  match fuel, l with
  | O, _ => None
  | _, [] => Some []
  | S f, _ =>
      match after (txt "</") l with
      | Some r =>
          let (n, r) := span name_char r in
          match after (txt ">") (snd (span is_blank r)) with
          | Some r => option_map (cons (EEnd n)) (read_events f r)
          | None => None
          end
      | None =>
      match after (txt "<") l with
      | Some r =>
          let (n, r) := span name_char r in
          match n, read_attrs (List.length r) r with
          | _ :: _, Some (a, e, r) => option_map (cons (if e then EEmpty n a else EStart n a)) (read_events f r)
          | _, _ => None
          end
      | None =>
          let (t, r) := until "<" l in
          match read_text t with Some t => option_map (cons (EText t)) (read_events f r) | None => None end
      end end
  end.

(** The tree: a stack of open elements *)
Definition add_text (e : xml) (t : chars) : xml :=
  match e with
  | Elem g a x [] => Elem g a (x ++ t) []
  | Elem g a x k => Elem g a x (removelast k ++ match last (map Some k) None with Some (c, tl) => [(c, tl ++ t)] | None => [] end)
  end.
Definition add_kid (e c : xml) : xml := match e with Elem g a x k => Elem g a x (k ++ [(c, [])]) end.
Fixpoint build (evs : list event) (top : xml) (open : list xml) : option xml :=
  match evs with
  | [] => match open with [] => Some top | _ => None end
  | EText t :: r => build r (add_text top t) open
  | EEmpty g a :: r => build r (add_kid top (Elem g a [] [])) open
  | EStart g a :: r => build r (Elem g a [] []) (top :: open)
  | EEnd g :: r => match open with
                   | p :: o => if chars_eqb (x_tag top) g then build r (add_kid p top) o else None
                   | [] => None
                   end
  end.
(** A document is one element, with blanks around it. *)
Definition read (l : chars) : option xml :=
  if negb (forallb legal l) then None
  else match read_events (S (List.length l)) l with
       | None => None
       | Some evs => match build evs (Elem [] [] [] []) [] with
                     | Some (Elem _ _ x [(e, tail)]) => if forallb is_blank x && forallb is_blank tail then Some e else None
                     | _ => None
                     end
       end.
