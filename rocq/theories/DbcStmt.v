(** DbcStmt: the statements of a DBC file, how they are written (database/can/formats/dbc.py:166-222 and 588-1208) and
    the grammar that reads them (dbc.py:418-538, with the combinators of the textparser library).
    A statement holds the texts of its tokens; numbers are not yet converted.  The trees that textparser builds are
    replaced by the fields of the statements. *)
From Coq Require Import Ascii.
From Verif Require Import Base CSource CNames Regex DecText DbcToken.
Local Open Scope string_scope.
Local Open Scope Z_scope.
Local Open Scope list_scope.

(** ** Pieces of text *)
(** The format strings are cut into pieces: a keyword, a name, a number, a quoted text, a symbol, and blanks. *)
Inductive piece := PK (k : string) | PI (w : chars) | PN (t : chars) | PS (b : chars) | PC (c : ascii) | PB (b : chars).
Definition piece_text (p : piece) : chars :=
  match p with
  | PK k => txt k
  | PI w => w
  | PN t => t
  | PS b => quote :: b ++ [quote]
  | PC c => [c]
  | PB b => b
  end.
Definition text (ps : list piece) : chars := flat_map piece_text ps.
Definition sp : piece := PB [" "%char].
Definition crlf : chars := ["013"%char; "010"%char].
(** sep.join(l) *)
Fixpoint join (sep : list piece) (l : list (list piece)) : list piece :=
  match l with
  | [] => []
  | [x] => x
  | x :: r => x ++ sep ++ join sep r
  end.

(** ** Statements *)
Inductive value_text := VNumber (t : chars) | VString (t : chars).
Record sg_stmt := SgStmt {
  ss_name : chars; ss_mux : option chars; ss_start : chars; ss_length : chars; ss_order : chars; ss_sign : ascii;
  ss_scale : chars; ss_offset : chars; ss_min : chars; ss_max : chars; ss_unit : chars; ss_receivers : list chars }.
(** The keyword, and the frame id and the name if there are any *)
Definition target := (string * option chars * option chars)%type.
Inductive stmt :=
| SVersion (v : chars)
| SNs
| SBs
| SNodes (names : list chars)
| SMessage (id name length sender : chars) (signals : list sg_stmt)
| SEnv (name type mn mx unit initial id access node : chars)
| SSenders (id : chars) (names : list chars)
| SComment (where_ : option target) (c : chars)
| SDef (kind : option string) (name type : chars) (values : list value_text)
| SRelDef (kind : option string) (name type : chars) (values : list value_text)
| SDefault (name : chars) (v : value_text)
| SRelDefault (name : chars) (v : value_text)
| SAttr (name : chars) (where_ : list target) (v : value_text)
| SSigRel (name node id signal : chars) (v : value_text)
| SMsgRel (name node id : chars) (v : value_text)
| SVal (id : option chars) (name : chars) (pairs : list (chars * chars))
| SValTable (name : chars) (pairs : list (chars * chars))
| SSigType (id name type : chars)
| SGroup (id name repetitions : chars) (names : list chars)
| SMux (id name mux : chars) (ranges : list (chars * chars)).

(** ** How they are written *)
Definition value_piece (v : value_text) : piece := match v with VNumber t => PN t | VString t => PS t end.
Definition vector_xxx : chars := txt "Vector__XXX".
Definition no_receivers (l : list chars) : bool := match l with [r] => chars_eqb r vector_xxx | _ => false end.
(** dbc.py:646-664.  The receivers ['Vector__XXX'] are written with one more blank than here. *)
Definition sg_pieces (s : sg_stmt) : list piece :=
  [sp; PK "SG_"; sp; PI (ss_name s)] ++ match ss_mux s with Some m => [sp; PI m] | None => [] end ++
  [sp; PC ":"; sp; PN (ss_start s); PC "|"; PN (ss_length s); PC "@"; PN (ss_order s); PC (ss_sign s); sp;
   PC "("; PN (ss_scale s); PC ","; PN (ss_offset s); PC ")"; sp; PC "["; PN (ss_min s); PC "|"; PN (ss_max s); PC "]"; sp;
   PS (ss_unit s); sp] ++ (if no_receivers (ss_receivers s) then [] else [sp]) ++
  join [PC ","] (map (fun r => [PI r]) (ss_receivers s)).
Definition kind_piece (k : option string) : piece := match k with Some k => PK k | None => PI (txt "None") end.
(** dbc.py:784-797, 811-822 *)
Definition def_values (type : chars) (l : list value_text) : list piece :=
  if chars_eqb type (txt "ENUM") then PB (txt "  ") :: join [PC ","] (map (fun v => [value_piece v]) l)
  else if chars_eqb type (txt "STRING") then [sp]
  else flat_map (fun v => [sp; value_piece v]) l.
Definition pair_pieces (p : chars * chars) : list piece := [PN (fst p); sp; PS (snd p)].
Definition target_pieces (t : target) : list piece :=
  let '(k, i, n) := t in
  PK k :: match i with Some i => [sp; PN i] | None => [] end ++ match n with Some n => [sp; PI n] | None => [] end.
(** dbc.py:168-198 *)
Definition ns_words : list string :=
  ["NS_DESC_"; "CM_"; "BA_DEF_"; "BA_"; "VAL_"; "CAT_DEF_"; "CAT_"; "FILTER"; "BA_DEF_DEF_"; "EV_DATA_"; "ENVVAR_DATA_";
   "SGTYPE_"; "SGTYPE_VAL_"; "BA_DEF_SGTYPE_"; "BA_SGTYPE_"; "SIG_TYPE_REF_"; "VAL_TABLE_"; "SIG_GROUP_"; "SIG_VALTYPE_";
   "SIGTYPE_VALTYPE_"; "BO_TX_BU_"; "BA_DEF_REL_"; "BA_REL_"; "BA_DEF_DEF_REL_"; "BU_SG_REL_"; "BU_EV_REL_"; "BU_BO_REL_";
   "SG_MUL_VAL_"].
Definition pieces (s : stmt) : list piece :=
  match s with
  | SVersion v => [PK "VERSION"; sp; PS v]
  | SNs => [PK "NS_"; sp; PC ":"; sp] ++ flat_map (fun k => [PB (crlf ++ ["009"%char]); PK k]) ns_words
  | SBs => [PK "BS_"; PC ":"]
  | SNodes l => [PK "BU_"; PC ":"; sp] ++ join [sp] (map (fun n => [PI n]) l)
  | SMessage i n l sd sg =>
      [PK "BO_"; sp; PN i; sp; PI n; PC ":"; sp; PN l; sp; PI sd] ++ flat_map (fun s => PB crlf :: sg_pieces s) sg
  | SEnv n t mn mx u v i a nd =>
      [PK "EV_"; sp; PI n; PC ":"; sp; PN t; sp; PC "["; PN mn; PC "|"; PN mx; PC "]"; sp; PS (escape u); sp; PN v; sp; PN i; sp;
       PI a; sp; PI nd; PC ";"]
  | SSenders i l => [PK "BO_TX_BU_"; sp; PN i; sp; PC ":"; sp] ++ join [PC ","] (map (fun n => [PI n]) l) ++ [PC ";"]
  | SComment None c => [PK "CM_"; sp; PS c; PC ";"]
  | SComment (Some t) c => [PK "CM_"; sp] ++ target_pieces t ++ [sp; PS (escape c); PC ";"]
  | SDef k n t l => [PK "BA_DEF_"; sp] ++ match k with Some k => [PK k; sp] | None => [] end ++ [sp; PS n; sp; PI t] ++
                    def_values t l ++ [PC ";"]
  | SRelDef k n t l => [PK "BA_DEF_REL_"; sp; kind_piece k; PB (txt "  "); PS n; sp; PI t] ++ def_values t l ++ [PC ";"]
  | SDefault n v => [PK "BA_DEF_DEF_"; PB (txt "  "); PS n; sp; value_piece v; PC ";"]
  | SRelDefault n v => [PK "BA_DEF_DEF_REL_"; sp; PS n; sp; value_piece v; PC ";"]
  | SAttr n l v => [PK "BA_"; sp; PS n] ++ flat_map (fun t => sp :: target_pieces t) l ++ [sp; value_piece v; PC ";"]
  | SSigRel n nd i sg v => [PK "BA_REL_"; sp; PS n; sp; PK "BU_SG_REL_"; sp; PI nd; sp; PK "SG_"; sp; PN i; sp; PI sg; sp; value_piece v; PC ";"]
  | SMsgRel n nd i v => [PK "BA_REL_"; sp; PS n; sp; PK "BU_BO_REL_"; sp; PI nd; sp; PN i; sp; value_piece v; PC ";"]
  | SVal i n l => [PK "VAL_"] ++ match i with Some i => [sp; PN i] | None => [] end ++ [sp; PI n; sp] ++
                  join [sp] (map pair_pieces l) ++ [sp; PC ";"]
  | SValTable n l => [PK "VAL_TABLE_"; sp; PI n; sp] ++ join [sp] (map pair_pieces l) ++ [sp; PC ";"]
  | SSigType i n t => [PK "SIG_VALTYPE_"; sp; PN i; sp; PI n; sp; PC ":"; sp; PN t; PC ";"]
  | SGroup i n r l => [PK "SIG_GROUP_"; sp; PN i; sp; PI n; sp; PN r; sp; PC ":"; sp] ++ join [sp] (map (fun n => [PI n]) l) ++ [PC ";"]
  | SMux i n m l => [PK "SG_MUL_VAL_"; sp; PN i; sp; PI n; sp; PI m; sp] ++
                    join [PC ","; sp] (map (fun r => [PN (fst r); PN (snd r)]) l) ++ [PC ";"]
  end.

(** ** The file *)
Record dbc_file := DbcFile {
  df_version : chars; df_nodes : list chars; df_tables : list stmt; df_messages : list stmt; df_senders : list stmt; df_envvars : list stmt;
  df_comments : list stmt; df_definitions : list stmt; df_rel_definitions : list stmt; df_defaults : list stmt; df_rel_defaults : list stmt;
  df_attributes : list stmt; df_rel_attributes : list stmt; df_choices : list stmt; df_types : list stmt; df_groups : list stmt; df_muxes : list stmt }.
(** sep.join(lines) *)
Definition lines (sep : chars) (l : list stmt) : list piece := join [PB sep] (map pieces l).
(** ''.join(line + '\r\n' for line in lines) *)
Definition each_line (l : list stmt) : list piece := flat_map (fun s => pieces s ++ [PB crlf]) l.
(** dbc.py:166-222 and 2267-2285.  The value tables are joined with an empty last line (dbc.py:613). *)
Definition file_pieces (f : dbc_file) : list piece :=
  pieces (SVersion (df_version f)) ++ PB (crlf ++ crlf ++ crlf) :: pieces SNs ++ PB (crlf ++ crlf) :: pieces SBs ++ PB (crlf ++ crlf) ::
  pieces (SNodes (df_nodes f)) ++ PB crlf :: each_line (df_tables f) ++ PB (crlf ++ crlf) ::
  lines (crlf ++ crlf) (df_messages f) ++ PB (crlf ++ crlf) :: lines crlf (df_senders f) ++ PB crlf ::
  lines (crlf ++ crlf) (df_envvars f) ++ PB (crlf ++ crlf) :: lines crlf (df_comments f) ++ PB crlf ::
  lines crlf (df_definitions f) ++ PB crlf :: each_line (df_rel_definitions f) ++ lines crlf (df_defaults f) ++ PB crlf ::
  each_line (df_rel_defaults f) ++ lines crlf (df_attributes f) ++ PB crlf :: each_line (df_rel_attributes f) ++
  lines crlf (df_choices f) ++ PB crlf :: lines crlf (df_types f) ++ PB crlf :: lines crlf (df_groups f) ++ PB crlf ::
  lines crlf (df_muxes f) ++ [PB crlf].
Definition file_text (f : dbc_file) : chars := text (file_pieces f).

(** ** The grammar *)
Definition parser (A : Type) := list token -> option (A * list token).
Definition pbind {A B} (p : parser A) (f : A -> parser B) : parser B :=
  fun ts => match p ts with Some (a, r) => f a r | None => None end.
Definition pret {A} (a : A) : parser A := fun ts => Some (a, ts).
Notation "'do' x <- p ; q" := (pbind p (fun x => q)) (at level 200, x pattern, p at level 100, q at level 200, right associativity).
(** A token of a given kind *)
Definition tok (k : string) : parser chars :=
  fun ts => match ts with (k', v) :: r => if String.eqb k k' then Some (v, r) else None | [] => None end.
(** Choice: the first alternative that matches *)
Fixpoint alt {A} (ps : list (parser A)) : parser A :=
  fun ts => match ps with
            | [] => None
            | p :: ps => match p ts with Some x => Some x | None => alt ps ts end
            end.
(** ZeroOrMore; every match takes a token *)
Fixpoint many_fuel {A} (fuel : nat) (p : parser A) : parser (list A) :=
  fun ts => match fuel with
            | O => Some ([], ts)
            | S f => match p ts with
                     | Some (a, r) => match many_fuel f p r with Some (l, r') => Some (a :: l, r') | None => None end
                     | None => Some ([], ts)
                     end
            end.
Definition many {A} (p : parser A) : parser (list A) := fun ts => many_fuel (List.length ts) p ts.
(** OneOrMore *)
Definition many1 {A} (p : parser A) : parser (list A) := do a <- p; do l <- many p; pret (a :: l).
(** DelimitedList with ',' *)
Definition delimited {A} (p : parser A) : parser (list A) := do a <- p; do l <- many (do _ <- tok ","; p); pret (a :: l).
(** Optional *)
Definition opt {A} (p : parser A) : parser (option A) :=
  fun ts => match p ts with Some (a, r) => Some (Some a, r) | None => Some (None, ts) end.
(** AnyUntil(Sequence(Any(), ':')): the tokens before the one that is followed by a colon *)
Fixpoint until_colon (ts : list token) : option (unit * list token) :=
  match ts with
  | [] => None
  | _ :: (((k, _) :: _) as r) => if String.eqb k ":" then Some (tt, ts) else until_colon r
  | _ :: r => until_colon r
  end.

Definition p_keyword (ks : list string) : parser string := alt (map (fun k => do _ <- tok k; pret k) ks).
Definition p_value : parser value_text :=
  alt [do t <- tok "NUMBER"; pret (VNumber t); do t <- tok "STRING"; pret (VString t)].
Definition p_pair : parser (chars * chars) := do n <- tok "NUMBER"; do t <- tok "STRING"; pret (n, t).

(** dbc.py:428-435 *)
Definition p_signal : parser sg_stmt :=
  do _ <- tok "SG_";
  do nm <- alt [do n <- tok "WORD"; do m <- tok "WORD"; pret (n, Some m); do n <- tok "WORD"; pret (n, None)];
  do _ <- tok ":"; do start <- tok "NUMBER"; do _ <- tok "|"; do len <- tok "NUMBER"; do _ <- tok "@"; do order <- tok "NUMBER";
  do sign <- tok "+/-";
  do _ <- tok "("; do scale <- tok "NUMBER"; do _ <- tok ","; do offset <- tok "NUMBER"; do _ <- tok ")";
  do _ <- tok "["; do mn <- tok "NUMBER"; do _ <- tok "|"; do mx <- tok "NUMBER"; do _ <- tok "]";
  do unit <- tok "STRING"; do rc <- delimited (tok "WORD");
  pret (SgStmt (fst nm) (snd nm) start len order (hd "+"%char sign) scale offset mn mx unit rc).
(** dbc.py:437-438 *)
Definition p_message : parser stmt :=
  do _ <- tok "BO_"; do i <- tok "NUMBER"; do n <- tok "WORD"; do _ <- tok ":"; do l <- tok "NUMBER"; do s <- tok "WORD";
  do sg <- many p_signal; pret (SMessage i n l s sg).
(** dbc.py:440-443 *)
Definition p_envvar : parser stmt :=
  do _ <- tok "EV_"; do n <- tok "WORD"; do _ <- tok ":"; do t <- tok "NUMBER"; do _ <- tok "["; do mn <- tok "NUMBER"; do _ <- tok "|";
  do mx <- tok "NUMBER"; do _ <- tok "]"; do u <- tok "STRING"; do v <- tok "NUMBER"; do i <- tok "NUMBER"; do a <- tok "WORD";
  do nd <- tok "WORD"; do _ <- tok ";"; pret (SEnv n t mn mx u v i a nd).
(** dbc.py:445-453 *)
Definition p_comment : parser stmt :=
  do _ <- tok "CM_";
  do s <- alt [do _ <- tok "SG_"; do i <- tok "NUMBER"; do n <- tok "WORD"; do c <- tok "STRING"; pret (SComment (Some ("SG_", Some i, Some n)) c);
               do _ <- tok "BO_"; do i <- tok "NUMBER"; do c <- tok "STRING"; pret (SComment (Some ("BO_", Some i, None)) c);
               do _ <- tok "EV_"; do n <- tok "WORD"; do c <- tok "STRING"; pret (SComment (Some ("EV_", None, Some n)) c);
               do _ <- tok "BU_"; do n <- tok "WORD"; do c <- tok "STRING"; pret (SComment (Some ("BU_", None, Some n)) c);
               do c <- tok "STRING"; pret (SComment None c)];
  do _ <- tok ";"; pret s.
Definition p_strings : parser (list value_text) := delimited (do t <- tok "STRING"; pret (VString t)).
Definition p_numbers : parser (list value_text) := many (do t <- tok "NUMBER"; pret (VNumber t)).
(** dbc.py:455-461.  The optional choice always matches, as ZeroOrMore does. *)
Definition p_definition : parser stmt :=
  do _ <- tok "BA_DEF_"; do k <- opt (p_keyword ["SG_"; "BO_"; "EV_"; "BU_"]); do n <- tok "STRING"; do t <- tok "WORD";
  do l <- alt [p_strings; p_numbers]; do _ <- tok ";"; pret (SDef k n t l).
(** dbc.py:463-464 *)
Definition p_default : parser stmt :=
  do _ <- tok "BA_DEF_DEF_"; do n <- tok "STRING"; do v <- p_value; do _ <- tok ";"; pret (SDefault n v).
(** dbc.py:466-473 *)
Definition p_attribute : parser stmt :=
  do _ <- tok "BA_"; do n <- tok "STRING";
  do l <- many (alt [do _ <- tok "BO_"; do i <- tok "NUMBER"; pret (("BO_", Some i, None) : target);
                     do _ <- tok "SG_"; do i <- tok "NUMBER"; do n <- tok "WORD"; pret ("SG_", Some i, Some n);
                     do _ <- tok "BU_"; do n <- tok "WORD"; pret ("BU_", None, Some n);
                     do _ <- tok "EV_"; do n <- tok "WORD"; pret ("EV_", None, Some n)]);
  do v <- p_value; do _ <- tok ";"; pret (SAttr n l v).
(** dbc.py:475-481: no values are an absent option or an empty list, which are read in the same way. *)
Definition p_rel_definition : parser stmt :=
  do _ <- tok "BA_DEF_REL_"; do k <- opt (p_keyword ["BU_SG_REL_"; "BU_BO_REL_"]); do n <- tok "STRING"; do t <- tok "WORD";
  do l <- opt (alt [p_strings; many1 (do t <- tok "NUMBER"; pret (VNumber t))]); do _ <- tok ";";
  pret (SRelDef k n t (match l with Some l => l | None => [] end)).
(** dbc.py:483-484 *)
Definition p_rel_default : parser stmt :=
  do _ <- tok "BA_DEF_DEF_REL_"; do n <- tok "STRING"; do v <- p_value; do _ <- tok ";"; pret (SRelDefault n v).
(** dbc.py:486-492 *)
Definition p_sig_rel : parser stmt :=
  do _ <- tok "BA_REL_"; do n <- tok "STRING"; do _ <- tok "BU_SG_REL_"; do nd <- tok "WORD"; do _ <- tok "SG_"; do i <- tok "NUMBER";
  do s <- tok "WORD"; do v <- p_value; do _ <- tok ";"; pret (SSigRel n nd i s v).
Definition p_msg_rel : parser stmt :=
  do _ <- tok "BA_REL_"; do n <- tok "STRING"; do _ <- tok "BU_BO_REL_"; do nd <- tok "WORD"; do i <- tok "NUMBER";
  do v <- p_value; do _ <- tok ";"; pret (SMsgRel n nd i v).
(** dbc.py:494-502 *)
Definition p_choice : parser stmt :=
  do _ <- tok "VAL_"; do i <- opt (tok "NUMBER"); do n <- tok "WORD"; do l <- many p_pair; do _ <- tok ";"; pret (SVal i n l).
Definition p_table : parser stmt :=
  do _ <- tok "VAL_TABLE_"; do n <- tok "WORD"; do l <- many p_pair; do _ <- tok ";"; pret (SValTable n l).
(** dbc.py:504-505 *)
Definition p_sig_type : parser stmt :=
  do _ <- tok "SIG_VALTYPE_"; do i <- tok "NUMBER"; do n <- tok "WORD"; do _ <- tok ":"; do t <- tok "NUMBER"; do _ <- tok ";";
  pret (SSigType i n t).
(** dbc.py:507-513 *)
Definition p_mux : parser stmt :=
  do _ <- tok "SG_MUL_VAL_"; do i <- tok "NUMBER"; do n <- tok "WORD"; do m <- tok "WORD";
  do l <- delimited (do a <- tok "NUMBER"; do b <- tok "NUMBER"; pret (a, b)); do _ <- tok ";"; pret (SMux i n m l).
(** dbc.py:515-519 *)
Definition p_senders : parser stmt :=
  do _ <- tok "BO_TX_BU_"; do i <- tok "NUMBER"; do _ <- tok ":"; do l <- delimited (tok "WORD"); do _ <- tok ";"; pret (SSenders i l).
Definition p_group : parser stmt :=
  do _ <- tok "SIG_GROUP_"; do i <- tok "NUMBER"; do n <- tok "WORD"; do r <- tok "NUMBER"; do _ <- tok ":"; do l <- many (tok "WORD");
  do _ <- tok ";"; pret (SGroup i n r l).
(** dbc.py:419-426 *)
Definition p_version : parser stmt := do _ <- tok "VERSION"; do v <- tok "STRING"; pret (SVersion v).
Definition p_ns : parser stmt := do _ <- tok "NS_"; do _ <- tok ":"; do _ <- until_colon; pret SNs.
Definition p_bs : parser stmt := do _ <- tok "BS_"; do _ <- tok ":"; pret SBs.
Definition p_nodes : parser stmt := do _ <- tok "BU_"; do _ <- tok ":"; do l <- many (tok "WORD"); pret (SNodes l).
(** dbc.py:521-540: the statements in the order of the file; the dictionary that textparser returns groups them by
    their keyword and keeps that order. *)
Definition p_stmt : parser stmt :=
  alt [p_message; p_comment; p_definition; p_table; p_choice; p_attribute; p_sig_rel; p_msg_rel; p_rel_definition; p_default;
       p_rel_default; p_group; p_sig_type; p_mux; p_senders; p_envvar; p_nodes; p_ns; p_bs; p_version].
Definition parse (s : chars) : option (list stmt) :=
  match tokenize s with
  | None => None
  | Some ts => match many1 p_stmt ts with Some (l, []) => Some l | _ => None end
  end.
