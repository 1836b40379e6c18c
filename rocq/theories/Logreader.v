(** Logreader: model of src/cantools/logreader.py.

    Timestamps are kept as the text of the line together with their kind; their conversion by float(),
    datetime and the tz argument is not modelled, except that float() and strptime() raise ValueError for
    text they cannot convert (not that they raise for values out of range). *)
From Coq Require Import Ascii.
From Verif Require Import Base CSource Regex.
Local Open Scope string_scope.
Local Open Scope Z_scope.
Local Open Scope list_scope.

Definition txt (s : string) : chars := list_ascii_of_string s.

(** ** The patterns *)
Definition sp0 := Star true (Chr is_space).         (* \s* *)
Definition sp0l := Star false (Chr is_space).       (* \s*? *)
Definition sp1 := Plus true (Chr is_space).         (* \s+ *)
Definition sp1l := Plus false (Chr is_space).       (* \s+? *)
Definition dig1 := Plus true (Chr is_digit).        (* \d+ *)
Definition dig1l := Plus false (Chr is_digit).      (* \d+? *)
Definition ch (c : ascii) := Chr (is_char c).
Definition hexpair (p : ascii -> bool) := Seq (Chr p) (Chr p).
Definition any0l := Star false (Chr dot).           (* .*? *)

(** The part of the candump patterns from the channel on: id, length in brackets, 'remote request' or pairs of
    hexadecimal digits each followed by spaces, an optional ERRORFRAME, anything. *)
Definition candump_rest : list re := [
  Group "channel" (Plus true (Chr non_space)); sp1;
  Group "can_id" (Plus true (Chr hex_upper)); sp1;
  ch "["; dig1; ch "]"; sp0;
  Group "can_data" (Alt (Lit (txt "remote request")) (Star true (Seq (hexpair hex_upper) (Star true (ch " ")))));
  sp0; Opt (Group "error_frame" (Lit (txt "ERRORFRAME"))); any0l; Eol].

(** logreader.py:99-100 *)
Definition candump_default : re := seqs (sp0l :: candump_rest).
(** logreader.py:116-117 *)
Definition num_dot (c : ascii) : bool := is_digit c || Ascii.eqb c ".".
Definition candump_timestamped : re :=
  seqs (sp0l :: ch "(" :: Group "timestamp" (Plus true (Chr num_dot)) :: ch ")" :: sp1 :: candump_rest).
(** logreader.py:145-146 *)
Definition candump_log : re :=
  seqs [sp0l; ch "("; Group "timestamp" (Plus false (Chr num_dot)); ch ")"; sp1l;
        Group "channel" (Plus true (Chr non_space)); sp1l; Group "can_id" (Plus false (Chr hex_upper)); ch "#";
        Opt (Seq (ch "#") (Chr hex_upper));
        Group "can_data" (Alt (ch "R") (Star true (hexpair hex_any)));
        Opt (Seq sp1 (Chr (fun c => Ascii.eqb c "R" || Ascii.eqb c "T"))); Eol].
(** logreader.py:171-172 *)
Definition digits_n (n : nat) := Times n (Chr is_digit).
Definition candump_absolute : re :=
  seqs (sp0l :: ch "(" ::
        Group "timestamp" (seqs [digits_n 4; ch "-"; digits_n 2; ch "-"; digits_n 2; ch " "; digits_n 2; ch ":"; digits_n 2; ch ":";
                                 digits_n 2; ch "."; dig1]) :: ch ")" :: sp1 :: candump_rest).

Definition pcan_data : re := Group "can_data" (Alt (Lit (txt "RTR")) (Star true (Chr (fun c => hex_upper c || Ascii.eqb c " ")))).
Definition pcan_opt_data : re := Opt (Seq sp1 (Group "can_data" (Star true (Chr (fun c => hex_upper c || Ascii.eqb c " "))))).
Definition word (name : string) : re := Group name (Plus true (Chr is_word)).
Definition fixed_ts : re := Group "timestamp" (seqs [dig1; Chr dot; dig1]).   (* \d+.\d+ *)
Definition pcan_id : re := Group "can_id" (Plus true (Chr hex_upper)).
Definition dlc1 : re := Group "dlc" (Chr is_digit).
Definition dlc2 : re := Group "dlc" (Plus true (Chr is_digit)).
Definition chan1 : re := Group "channel" (Chr is_digit).
(** logreader.py:187-188, 231-232, 250-251, 265-266, 277-278, 303-304 *)
Definition pcan_v10 : re :=
  seqs [sp0l; dig1; ch ")"; sp0l; Group "timestamp" dig1; sp1; pcan_id; sp1; dlc1; sp1; pcan_data; Eol].
Definition pcan_v11 : re :=
  seqs [sp0l; dig1; ch ")"; sp0l; fixed_ts; sp1; word "type"; sp1; pcan_id; sp1; dlc1; sp1; pcan_data; Eol].
Definition pcan_v12 : re :=
  seqs [sp0l; dig1; ch ")"; sp0l; fixed_ts; sp1; chan1; sp1; word "type"; sp1; pcan_id; sp1; dlc1; sp1; pcan_data; Eol].
Definition pcan_v13 : re :=
  seqs [sp0l; dig1; ch ")"; sp0l; fixed_ts; sp1; chan1; sp1; word "type"; sp1; pcan_id; sp1; ch "-"; sp1; dlc1; sp1; pcan_data; Eol].
Definition pcan_v20 : re :=
  seqs [sp0l; dig1l; sp0l; fixed_ts; sp1; word "type"; sp1; pcan_id; sp1; word "rxtx"; sp1; dlc2; pcan_opt_data; Eol].
Definition pcan_v21 : re :=
  seqs [sp0l; dig1l; sp0l; fixed_ts; sp1; word "type"; sp1; chan1; sp1; pcan_id; sp1; Group "rxtx" (Plus true (Chr dot)); sp1; ch "-"; sp1;
        dlc2; pcan_opt_data; Eol].

(** ** Conversions *)
Definition hex_value (c : ascii) : Z :=
  let n := Z.of_N (code c) in
  if is_digit c then n - 48 else if in_range "A" "F" c then n - 55 else n - 87.
(** int(text, 16) for a text of hexadecimal digits *)
Definition hex_int (l : chars) : Z := fold_left (fun a c => 16 * a + hex_value c) l 0.

(** binascii.unhexlify *)
Fixpoint unhexlify (l : chars) : result (list Z) :=
  match l with
  | [] => Ok []
  | a :: b :: r => if hex_any a && hex_any b then let* t := unhexlify r in Ok ((16 * hex_value a + hex_value b) :: t) else Err ValueError
  | _ => Err ValueError
  end.
(** bytes.fromhex: white space between the bytes is skipped *)
Fixpoint fromhex (l : chars) : result (list Z) :=
  match l with
  | [] => Ok []
  | a :: r =>
      if Ascii.eqb a " " then fromhex r
      else match r with
           | b :: r' => if hex_any a && hex_any b then let* t := fromhex r' in Ok ((16 * hex_value a + hex_value b) :: t) else Err ValueError
           | [] => Err ValueError
           end
  end.

(** float(text) for a text of digits and dots *)
Definition float_ok (l : chars) : bool :=
  existsb is_digit l && Nat.leb (List.length (filter (Ascii.eqb ".") l)) 1.
(** float(text) for \d+ and \d+.\d+: the character between the digits may be anything; a point, an
    underscore and an exponent sign are understood. *)
Definition float_ok_any (l : chars) : bool :=
  forallb (fun c => num_dot c || Ascii.eqb c "e" || Ascii.eqb c "E" || Ascii.eqb c "_") l.

Definition dec_int (l : chars) : Z := fold_left (fun a c => 10 * a + hex_value c) l 0.
Definition leap (y : Z) : bool := ((y mod 4 =? 0) && (negb (y mod 100 =? 0) || (y mod 400 =? 0)))%Z.
Definition month_days (y m : Z) : Z :=
  (if m =? 2 then (if leap y then 29 else 28) else if (m =? 4) || (m =? 6) || (m =? 9) || (m =? 11) then 30 else 31)%Z.
(** datetime.strptime(text, "%Y-%m-%d %H:%M:%S.%f") for texts of the form of the pattern *)
Definition date_ok (l : chars) : bool :=
  let f a n := dec_int (firstn n (skipn a l)) in
  let y := f 0%nat 4%nat in let mo := f 5%nat 2%nat in let d := f 8%nat 2%nat in
  (1 <=? y) && (1 <=? mo) && (mo <=? 12) && (1 <=? d) && (d <=? month_days y mo) &&
  (f 11%nat 2%nat <=? 23) && (f 14%nat 2%nat <=? 59) && (f 17%nat 2%nat <=? 59) && Nat.leb (List.length l - 20) 6.

(** ** Frames *)
Inductive ts_kind := TMissing | TSeconds (* relative below 662688000, else absolute *) | TAbsolute | TDate | TMillis.
Record dataframe := mkFrame {
  df_channel : chars; df_id : Z; df_ext : bool; df_data : list Z; df_remote : bool; df_ts_kind : ts_kind; df_ts : chars }.

Inductive pattern := PDefault | PTimestamped | PLog | PAbsolute | PV21 | PV20 | PV13 | PV12 | PV11 | PV10.
Definition pattern_re (p : pattern) : re :=
  match p with
  | PDefault => candump_default | PTimestamped => candump_timestamped | PLog => candump_log | PAbsolute => candump_absolute
  | PV21 => pcan_v21 | PV20 => pcan_v20 | PV13 => pcan_v13 | PV12 => pcan_v12 | PV11 => pcan_v11 | PV10 => pcan_v10
  end.

(** A group that took part in the match; None is not used where this is called. *)
Definition grp (c : caps) (name : string) : chars := match group c name with Some t => t | None => [] end.
Definition texteq (a : chars) (b : string) : bool := if list_eq_dec ascii_dec a (txt b) then true else false.

(** logreader.py:74-96 [CandumpBasePattern.unpack] with the parse_timestamp methods *)
Definition candump_unpack (p : pattern) (c : caps) : result (option dataframe) :=
  match group c "error_frame" with
  | Some _ => Ok None
  | None =>
      let data := grp c "can_data" in
      let* (remote, bytes) :=
        (if texteq data "remote request" || texteq data "R" then Ok (true, [])
         else let* b := unhexlify (filter (fun x => negb (Ascii.eqb x " ")) data) in Ok (false, b)) in
      let ts := grp c "timestamp" in
      let* kind := match p with
                   | PDefault => Ok TMissing
                   | PTimestamped => if float_ok ts then Ok TSeconds else Err ValueError
                   | PLog => if float_ok ts then Ok TAbsolute else Err ValueError
                   | _ => if date_ok ts then Ok TDate else Err ValueError
                   end in
      Ok (Some (mkFrame (grp c "channel") (hex_int (grp c "can_id")) (Nat.ltb 3 (List.length (grp c "can_id"))) bytes remote kind ts))
  end.

(** logreader.py:190-217 [PCANTracePatternV10.unpack, parse_channel, parse_data], 234-238, 253-254, 280-291,
    306-307.  In versions 2.x an absent data group is None, for which bytes.fromhex raises TypeError. *)
Definition pcan_unpack (p : pattern) (c : caps) : result (option dataframe) :=
  let type := grp c "type" in
  if match p with PV10 => false | _ => texteq type "Error" || texteq type "Warng" end then Ok None
  else
    let channel := match p with
                   | PV12 | PV13 | PV21 => txt "pcan" ++ grp c "channel"
                   | _ => txt "pcanx"
                   end in
    let* (bytes, remote) :=
      (if match p with PV20 | PV21 => texteq type "RR" | _ => false end then Ok ([], true)
       else match group c "can_data" with
            | None => Err TypeError
            | Some t => if texteq t "RTR" then Ok ([], true) else let* b := fromhex t in Ok (b, false)
            end) in
    let ts := grp c "timestamp" in
    if float_ok_any ts then
      Ok (Some (mkFrame channel (hex_int (grp c "can_id")) (Nat.ltb 4 (List.length (grp c "can_id"))) bytes remote TMillis ts))
    else Err ValueError.

Definition unpack (p : pattern) (c : caps) : result (option dataframe) :=
  match p with
  | PDefault | PTimestamped | PLog | PAbsolute => candump_unpack p c
  | _ => pcan_unpack p c
  end.
(** logreader.py:59-64 [BasePattern.match] *)
Definition pmatch (p : pattern) (line : chars) : result (option dataframe) :=
  match re_match (pattern_re p) line with
  | Some c => unpack p c
  | None => Ok None
  end.

(** ** Parser *)
Definition matches_line (line : chars) (p : pattern) : bool :=
  match re_match (pattern_re p) line with Some _ => true | None => false end.
(** logreader.py:336-342 [detect_pattern] *)
Definition all_patterns : list pattern := [PDefault; PTimestamped; PLog; PAbsolute; PV21; PV20; PV13; PV12; PV11; PV10].
Definition detect (line : chars) : option pattern := find (matches_line line) all_patterns.

(** logreader.py:344-349 [parse]: the state is the detected pattern. *)
Definition parse (st : option pattern) (line : chars) : option pattern * result (option dataframe) :=
  let st' := match st with Some p => Some p | None => detect line end in
  (st', match st' with Some p => pmatch p line | None => Ok None end).

(** str.strip('\r\n') *)
Definition cr_lf (c : ascii) : bool := Ascii.eqb c "013" || Ascii.eqb c "010".
Fixpoint drop_while (p : ascii -> bool) (l : chars) : chars := match l with c :: r => if p c then drop_while p r else l | [] => [] end.
Definition strip (l : chars) : chars := rev (drop_while cr_lf (rev (drop_while cr_lf l))).

(** logreader.py:359-379 [iterlines]: what is yielded, and whether an exception ends the iteration. *)
Fixpoint iterlines (st : option pattern) (keep : bool) (lines : list chars) : list (chars * option dataframe) * option exn :=
  match lines with
  | [] => ([], None)
  | nl :: r =>
      match nl with
      | [] => ([], None)
      | _ =>
          let l := strip nl in
          let (st', f) := parse st l in
          match f with
          | Err e => ([], Some e)
          | Ok f =>
              let (ys, e) := iterlines st' keep r in
              (match f with
               | Some d => (l, Some d) :: ys
               | None => if keep then (l, None) :: ys else ys
               end, e)
          end
      end
  end.
