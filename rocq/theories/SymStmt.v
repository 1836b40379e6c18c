(** SymStmt: the rows of SYM files: how they are written (database/can/formats/sym.py:782-974) and the grammar that reads
    them (sym.py:172-265).  A row holds the texts of its tokens.  A join with line ends that is followed by a line end is
    written as a line end after each part. *)
From Coq Require Import Ascii.
From Verif Require Import Base CSource CNames Regex DecText DbcToken DbcStmt SymToken.
Local Open Scope string_scope.
Local Open Scope Z_scope.
Local Open Scope list_scope.

(** ** Rows *)
Inductive sattr := AUnit (raw : chars) | AKey (k : string) (v : chars).
Record enum_row := EnumRow { er_name : chars; er_values : list (chars * chars) }.
(** A row of the signals: the flags -h and -b are not used *)
Record sig_row := SigRow { sr_name : chars; sr_type : chars; sr_len : option chars; sr_big : bool; sr_attrs : list sattr; sr_comment : option chars }.
Inductive entry :=
| EId (first : chars) (last : option chars) (comment : option chars)
| ELen (n : chars)
| EMux (name start len id : chars) (flags : list string) (comment : option chars)
| ECycle (n : chars) (p : bool)
| ETimeout (n : chars)
| EInterval (n : chars)
| EColor (n : chars)
| EVar (name type start len : chars) (flags : list string) (attrs : list sattr) (comment : option chars)
| ESig (name start : chars)
| EType (t : chars)
| EStray (last : chars).  (* an end of a range that is written without the ID (sym.py:897-902); the grammar has no such row *)
Record symbol := Symbol { sy_name : chars; sy_entries : list entry }.
Inductive section :=
| SecEnums (l : list enum_row)
| SecSignals (l : list sig_row)
| SecSymbols (kind : string) (l : list symbol).
(** The keys of the dictionary that ZeroOrMoreDict returns *)
Definition entry_key (e : entry) : string :=
  match e with
  | EId _ _ _ => "ID" | ELen _ => "Len" | EMux _ _ _ _ _ _ => "Mux" | ECycle _ _ => "CycleTime" | ETimeout _ => "Timeout" | EInterval _ => "MinInterval"
  | EColor _ => "Color" | EVar _ _ _ _ _ _ _ => "Var" | ESig _ _ => "Sig" | EType _ => "Type" | EStray _ => ""
  end.
Definition entry_keys : list string := ["ID"; "Len"; "Mux"; "CycleTime"; "Timeout"; "MinInterval"; "Color"; "Var"; "Sig"; "Type"].

(** ** Writing *)
Definition comment_body (raw : chars) : chars := removelast (skipn 2 raw).
Definition unit_body (raw : chars) : chars := removelast (skipn 4 raw).
Definition space : spiece := SB [" "%char].
Definition line_end : spiece := SB [newline].
Definition hex_piece (t : chars) : spiece := SH (removelast t).
(** The rest of a line: the line end is part of a comment. *)
Definition end_pieces (c : option chars) : list spiece := match c with Some raw => [space; SC (comment_body raw)] | None => [line_end] end.
Definition kw (k : string) : list spiece := [SW (txt k); SL "="].
(** sym.py:782-796: every tenth value starts a new line. *)
Definition separator (i : nat) : list spiece :=
  match i with O => [] | _ => SL "," :: (if Nat.eqb (i mod 10) 0 then [line_end] else [space]) end.
Fixpoint value_pieces (i : nat) (l : list (chars * chars)) : list spiece :=
  match l with [] => [] | (n, t) :: r => separator i ++ SN n :: SL "=" :: SS t :: value_pieces (S i) r end.
Definition enum_pieces (e : enum_row) : list spiece :=
  kw "Enum" ++ SW (er_name e) :: SL "(" :: value_pieces 0 (er_values e) ++ [SL ")"; line_end].
(** sym.py:829-852 *)
Definition attr_pieces (a : sattr) : list spiece :=
  match a with
  | AUnit raw => [space; SU (unit_body raw)]
  | AKey k v => [space; SL k; if String.eqb k "/e:" then SW v else SN v]
  end.
Definition sig_pieces (s : sig_row) : list spiece :=
  kw "Sig" ++ SS (sr_name s) :: space :: SW (sr_type s) :: match sr_len s with Some n => [space; SN n] | None => [] end ++
  (if sr_big s then [space; SL "-m"] else []) ++ flat_map attr_pieces (sr_attrs s) ++ end_pieces (sr_comment s).
(** sym.py:873-916; other entries are not written. *)
Definition entry_pieces (e : entry) : list spiece :=
  match e with
  | EId a b c => kw "ID" ++ hex_piece a :: match b with Some t => [hex_piece t] | None => [] end ++ end_pieces c
  | EType t => kw "Type" ++ [SW t; line_end]
  | ELen n => kw "Len" ++ [SN n; line_end]
  | ECycle n _ => kw "CycleTime" ++ [SN n; line_end]
  | EMux n s l i f _ => kw "Mux" ++ [SS n; space; SN s; SL ","; SN l; space; hex_piece i; space] ++ map SL f ++ [line_end]
  | ESig n s => kw "Sig" ++ [SS n; space; SN s; line_end]
  | EStray t => [hex_piece t]
  | _ => []
  end.
Definition symbol_pieces (s : symbol) : list spiece :=
  SL "[" :: SS (sy_name s) :: SL "]" :: line_end :: flat_map entry_pieces (sy_entries s).
Record sym_rows := SymRows { f_enums : list enum_row; f_signals : list sig_row; f_send : list symbol; f_receive : list symbol; f_both : list symbol }.
(** sym.py:967-973 *)
Definition section_pieces (kind : string) (l : list symbol) : list spiece :=
  match l with [] => [] | _ => SL kind :: line_end :: flat_map (fun s => symbol_pieces s ++ [line_end]) l end.
(** sym.py:983-988 *)
Definition header_pieces : list spiece :=
  kw "FormatVersion" ++ SN (txt "6.0") :: space :: SC (txt " Do not edit this line!") :: kw "Title" ++ [SS (txt "SYM Database"); line_end; line_end].
Definition rows_pieces {A} (kind : string) (f : A -> list spiece) (l : list A) : list spiece :=
  match l with [] => [line_end; line_end] | _ => SL kind :: line_end :: flat_map f l ++ [line_end] end.
Definition sym_pieces_of (f : sym_rows) : list spiece :=
  header_pieces ++ rows_pieces "{ENUMS}" enum_pieces (f_enums f) ++ rows_pieces "{SIGNALS}" sig_pieces (f_signals f) ++
  section_pieces "{SEND}" (f_send f) ++ section_pieces "{RECEIVE}" (f_receive f) ++ section_pieces "{SENDRECEIVE}" (f_both f).
Definition sym_text (f : sym_rows) : chars := stext (sym_pieces_of f).

(** ** The grammar *)
Notation "'do' x <- p ; q" := (pbind p (fun x => q)) (at level 200, x pattern, p at level 100, q at level 200, right associativity).
(** Any() *)
Definition p_any : parser chars := fun ts => match ts with (_, v) :: r => Some (v, r) | [] => None end.
Definition p_word : parser chars := alt (map tok ("WORD" :: sym_keywords)).
Definition p_comment : parser (option chars) := opt (tok "COMMENT").
Definition p_flag (f : string) : parser string := do _ <- tok f; pret f.
Definition p_key (k : string) (p : parser chars) : parser sattr := do _ <- tok k; do v <- p; pret (AKey k v).
(** sym.py:186-195 *)
Definition var_attrs : list (parser sattr) :=
  [do u <- tok "/u:"; pret (AUnit u); p_key "/f:" (tok "NUMBER"); p_key "/o:" (tok "NUMBER"); p_key "/min:" (tok "NUMBER");
   p_key "/max:" (tok "NUMBER"); p_key "/d:" (alt [tok "NUMBER"; tok "WORD"]); p_key "/ln:" (tok "STRING"); p_key "/e:" p_word; p_key "/p:" (tok "NUMBER")].
Definition sig_attrs : list (parser sattr) := var_attrs ++ [p_key "/spn:" (tok "NUMBER")].
(** sym.py:180-184 *)
Definition p_enum_value : parser (chars * chars) := do n <- tok "NUMBER"; do _ <- tok "="; do t <- tok "STRING"; pret (n, t).
Definition p_enum_values : parser (list (chars * chars)) :=
  do a <- p_enum_value; do l <- many (do _ <- tok ","; do _ <- p_comment; p_enum_value); pret (a :: l).
Definition p_enum : parser enum_row :=
  do _ <- tok "Enum"; do _ <- tok "="; do n <- p_word; do _ <- tok "("; do l <- opt p_enum_values; do _ <- tok ")"; do _ <- p_comment;
  pret (EnumRow n (match l with Some l => l | None => [] end)).
(** sym.py:197-211 *)
Definition p_sig : parser sig_row :=
  do _ <- tok "Sig"; do _ <- tok "="; do n <- p_any; do t <- p_word; do len <- opt (tok "NUMBER"); do _ <- opt (alt [tok "-h"; tok "-b"]);
  do m <- opt (tok "-m"); do a <- many (alt sig_attrs); do c <- p_comment;
  pret (SigRow n t len (match m with Some _ => true | None => false end) a c).
(** sym.py:213-243 *)
Definition p_entries : list (parser entry) :=
  [do _ <- tok "ID"; do _ <- tok "="; do a <- tok "HEXNUMBER"; do b <- opt (tok "HEXNUMBER"); do c <- p_comment; pret (EId a b c);
   do _ <- tok "Len"; do _ <- tok "="; do n <- tok "NUMBER"; pret (ELen n);
   do _ <- tok "Mux"; do _ <- tok "="; do n <- p_any; do s <- tok "NUMBER"; do _ <- tok ","; do l <- tok "NUMBER"; do i <- alt [tok "NUMBER"; tok "HEXNUMBER"];
     do f <- many (alt [p_flag "-t"; p_flag "-m"]); do c <- p_comment; pret (EMux n s l i f c);
   do _ <- tok "CycleTime"; do _ <- tok "="; do n <- tok "NUMBER"; do p <- opt (tok "-p"); pret (ECycle n (match p with Some _ => true | None => false end));
   do _ <- tok "Timeout"; do _ <- tok "="; do n <- tok "NUMBER"; pret (ETimeout n);
   do _ <- tok "MinInterval"; do _ <- tok "="; do n <- tok "NUMBER"; pret (EInterval n);
   do _ <- tok "Color"; do _ <- tok "="; do n <- tok "HEXNUMBER"; pret (EColor n);
   do _ <- tok "Var"; do _ <- tok "="; do n <- p_any; do t <- p_word; do s <- tok "NUMBER"; do _ <- tok ","; do l <- tok "NUMBER";
     do f <- many (alt (map p_flag ["-v"; "-m"; "-s"; "-h"])); do a <- many (alt var_attrs); do c <- p_comment; pret (EVar n t s l f a c);
   do _ <- tok "Sig"; do _ <- tok "="; do n <- p_any; do s <- tok "NUMBER"; pret (ESig n s);
   do _ <- tok "Type"; do _ <- tok "="; do t <- p_any; pret (EType t)].
Definition p_symbol : parser symbol :=
  do _ <- tok "["; do n <- p_any; do _ <- tok "]"; do l <- many (alt p_entries); pret (Symbol n l).
(** sym.py:245-255: the comments between the rows are dropped (sym.py:272). *)
Definition somes {A} (l : list (option A)) : list A := flat_map (fun o => match o with Some x => [x] | None => [] end) l.
Definition p_rows {A} (p : parser A) : parser (list A) :=
  do l <- many (alt [do x <- p; pret (Some x); do _ <- tok "COMMENT"; pret None]); pret (somes l).
Definition p_symbols (k : string) : parser section := do _ <- tok k; do l <- p_rows p_symbol; pret (SecSymbols k l).
Definition p_section : parser section :=
  alt [do _ <- tok "{ENUMS}"; do l <- p_rows p_enum; pret (SecEnums l); do _ <- tok "{SIGNALS}"; do l <- p_rows p_sig; pret (SecSignals l);
       p_symbols "{SEND}"; p_symbols "{RECEIVE}"; p_symbols "{SENDRECEIVE}"].
(** sym.py:174-178 *)
Definition p_settings : parser unit :=
  alt [do _ <- tok "UniqueVariables"; do _ <- tok "="; do _ <- p_word; pret tt; do _ <- tok "FloatDecimalPlaces"; do _ <- tok "="; do _ <- tok "NUMBER"; pret tt;
       do _ <- tok "Title"; do _ <- tok "="; do _ <- tok "STRING"; pret tt; do _ <- tok "BRS"; do _ <- tok "="; do _ <- p_word; pret tt].
(** sym.py:257-263: the version and the sections *)
Definition p_file : parser (chars * list section) :=
  do _ <- p_comment; do _ <- tok "FormatVersion"; do _ <- tok "="; do v <- tok "NUMBER"; do _ <- tok "COMMENT"; do _ <- many p_settings;
  do l <- many p_section; pret (v, l).
Definition sym_parse (s : chars) : option (chars * list section) :=
  match sym_tokenize s with
  | None => None
  | Some ts => match p_file ts with Some (f, []) => Some f | _ => None end
  end.
