(** DbcToken: model of [DbcParser.tokenize] (database/can/formats/dbc.py:321-416).  Text is ASCII. *)
From Coq Require Import Ascii.
From Verif Require Import Base CSource CNames Regex.
Local Open Scope string_scope.
Local Open Scope Z_scope.
Local Open Scope list_scope.

Definition txt (s : string) : chars := list_ascii_of_string s.
Definition quote : ascii := "034".
Definition backslash : ascii := "092".

(** A token: its kind as the grammar names it, and its text. *)
Definition token := (string * chars)%type.

(** dbc.py:324-360 *)
Definition keywords : list string :=
  ["BA_"; "BA_DEF_"; "BA_DEF_DEF_"; "BA_DEF_DEF_REL_"; "BA_DEF_REL_"; "BA_DEF_SGTYPE_"; "BA_REL_"; "BA_SGTYPE_"; "BO_";
   "BO_TX_BU_"; "BS_"; "BU_"; "BU_BO_REL_"; "BU_EV_REL_"; "BU_SG_REL_"; "CAT_"; "CAT_DEF_"; "CM_"; "ENVVAR_DATA_"; "EV_";
   "EV_DATA_"; "FILTER"; "NS_"; "NS_DESC_"; "SG_"; "SG_MUL_VAL_"; "SGTYPE_"; "SGTYPE_VAL_"; "SIG_GROUP_"; "SIG_TYPE_REF_";
   "SIG_VALTYPE_"; "SIGTYPE_VALTYPE_"; "VAL_"; "VAL_TABLE_"; "VERSION"].
Definition is_keyword (w : chars) : bool := existsb (String.eqb (string_of_list_ascii w)) keywords.

(** dbc.py:375-391; re.DOTALL, so '.' is any character. *)
Definition skip_char (c : ascii) : bool :=
  Ascii.eqb c " " || Ascii.eqb c "013" || Ascii.eqb c newline || Ascii.eqb c "009".
Definition any_char (c : ascii) : bool := true.
Definition is_sign (c : ascii) : bool := Ascii.eqb c "-" || Ascii.eqb c "+".
Definition is_exp (c : ascii) : bool := Ascii.eqb c "e" || Ascii.eqb c "E".
Definition skip_re : re :=
  Alt (Plus true (Chr skip_char)) (seqs [Lit (txt "//"); Star false (Chr any_char); Chr (is_char newline)]).
Definition number_re : re :=
  seqs [Opt (Chr is_sign); Plus true (Chr is_digit); Opt (Chr (is_char ".")); Star true (Chr is_digit);
        Opt (seqs [Chr is_exp; Opt (Chr is_sign); Plus true (Chr is_digit)])].
Definition word_re : re := Plus true (Chr is_word).
Definition string_body : re := Alt (Seq (Chr (is_char backslash)) (Chr (is_char quote))) (Chr (fun c => negb (Ascii.eqb c quote))).
Definition string_re : re := seqs [Chr (is_char quote); Star false string_body; Chr (is_char quote)].
Definition token_specs : list (string * re) :=
  [("SKIP", skip_re); ("NUMBER", number_re); ("WORD", word_re); ("STRING", string_re);
   ("(", Chr (is_char "(")); (")", Chr (is_char ")")); ("[", Chr (is_char "[")); ("]", Chr (is_char "]"));
   (",", Chr (is_char ",")); ("|", Chr (is_char "|")); ("@", Chr (is_char "@")); ("+/-", Chr is_sign);
   (";", Chr (is_char ";")); (":", Chr (is_char ":")); ("MISMATCH", Chr any_char)].

(** The text left after a match of the pattern at the start of [s] *)
Definition match_rest (r : re) (s : chars) : option chars := rmatch r [] s (fun _ s' => Some s').

(** The alternatives of the combined pattern are tried in order: the kind (with the names of dbc.py:362-373), the
    matched text and the text left. *)
Fixpoint lex_with (specs : list (string * re)) (s : chars) : option (string * chars * chars) :=
  match specs with
  | [] => None
  | (k, r) :: rest => match match_rest r s with
                      | Some s' => Some (k, consumed s s', s')
                      | None => lex_with rest s
                      end
  end.
Definition lex (s : chars) : option (string * chars * chars) := lex_with token_specs s.

(** str.replace('\\"', '"') *)
Fixpoint unescape (s : chars) : chars :=
  match s with
  | c :: ((d :: r) as t) => if Ascii.eqb c backslash && Ascii.eqb d quote then quote :: unescape r else c :: unescape t
  | _ => s
  end.
(** s[1:-1] *)
Definition inner (s : chars) : chars := removelast (tl s).

(** dbc.py:398-414: what one match contributes; None is TokenizeError. *)
Definition emit (k : string) (v : chars) : option (list token) :=
  if String.eqb k "SKIP" then Some []
  else if String.eqb k "STRING" then Some [("STRING", unescape (inner v))]
  else if String.eqb k "MISMATCH" then None
  else Some [((if is_keyword v then string_of_list_ascii v else k), v)].

(** dbc.py:395-416; [fuel] is the length of the text: every match consumes a character. *)
Fixpoint tokens_fuel (fuel : nat) (s : chars) : option (list token) :=
  match fuel, s with
  | _, [] => Some []
  | O, _ => None
  | S f, _ =>
      match lex s with
      | None => None
      | Some (k, v, s') =>
          match emit k v, tokens_fuel f s' with
          | Some t, Some ts => Some (t ++ ts)
          | _, _ => None
          end
      end
  end.
Definition tokenize (s : chars) : option (list token) := tokens_fuel (List.length s) s.

(** dbc.py:695, 702, 714, 720: str.replace('"', '\\"') *)
Definition escape (s : chars) : chars := flat_map (fun c => if Ascii.eqb c quote then [backslash; quote] else [c]) s.
