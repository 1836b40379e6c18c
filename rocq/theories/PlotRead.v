(** PlotRead: how the plot command reads its input (src/cantools/subparsers/plot.py: _do_decode, _mo_unpack and TimestampParser).
    Texts are ASCII.  The conversions of times (strptime, float, fromtimestamp, and what a user may write for --start and --stop)
    are parameters.  Not modelled: the label of the horizontal axis and what is done with the frames, for which see Plot. *)
From Coq Require Import Ascii.
From Verif Require Import Base CSource Regex Logreader.
Local Open Scope string_scope.
Local Open Scope Z_scope.
Local Open Scope list_scope.

(** ** The patterns *)
(** plot.py:90 RE_CANDUMP *)
Definition hex_or_blank (c : ascii) : bool := hex_upper c || Ascii.eqb c " ".
Definition plot_time : re := Opt (seqs [ch "("; Group "time" any0l; ch ")"]).
Definition plot_end : list re := [Opt (seqs [sp0; Lit (txt "::"); Star true (Chr dot)]); Eol].
Definition plot_columns : list re := [
  Plus true (Chr non_space); sp1; Group "frameid" (Plus true (Chr hex_upper)); sp0; ch "["; dig1; ch "]"; sp0;
  Group "data" (Star true (Chr hex_or_blank))] ++ plot_end.
Definition plot_candump : re := seqs ([sp0; plot_time; sp0] ++ plot_columns).
(** plot.py:92 RE_DECODE; of the second alternative the part that may be missing is left out, because only whether there is a
    match is used *)
Definition value_char (c : ascii) : bool := is_digit c || Ascii.eqb c "." || Ascii.eqb c "+" || Ascii.eqb c "-".
Definition plot_decode : re :=
  Alt (seqs [Plus true (Chr is_word); ch "("]) (Alt (seqs [sp1; Plus true (Chr is_word); ch ":"; sp1; Plus true (Chr value_char)]) (ch ")")).
(** plot.py:94 RE_CANDUMP_LOG *)
Definition plot_log_rest : list re := [
  Plus true (Chr non_space); sp1; Group "frameid" (Plus true (Chr hex_upper)); ch "#"; Group "data" (Star true (Chr hex_upper));
  Opt (Seq sp1 (Chr (fun c => Ascii.eqb c "R" || Ascii.eqb c "T"))); Eol].
Definition plot_log : re := seqs ([ch "("; Group "time" (seqs [dig1; ch "."; dig1]); ch ")"; sp1] ++ plot_log_rest).
Inductive format := Candump | Log.
Definition format_re (f : format) : re := match f with Candump => plot_candump | Log => plot_log end.

(** plot.py:97-108 _mo_unpack *)
Definition frame_number (digits : chars) : result Z :=
  if Nat.leb (List.length digits) 8 then Ok (hex_int digits) else if Nat.even (List.length digits) then Err StructError else Err ValueError.
Definition mo_unpack (c : caps) : result (option chars * Z * list Z) :=
  let* id := frame_number (grp c "frameid") in
  let* data := unhexlify (filter (fun x => negb (Ascii.eqb x " ")) (grp c "data")) in
  Ok (group c "time", id, data).

Section Times.
  (** Points in time and seconds *)
  Context {D F : Type}.
  (** strptime with FORMAT_ABSOLUTE_TIMESTAMP; float; whether seconds are above the threshold; fromtimestamp *)
  Context (date_of : chars -> option D) (float_of : chars -> option F) (large : F -> bool) (from_seconds : F -> result D).
  Context (date_ltb : D -> D -> bool) (float_ltb : F -> F -> bool).
  (** parse_user_input_relative_time, parse_user_input_absolute_time and int *)
  Context (relative_input : chars -> result F) (absolute_input : chars -> D -> result D) (int_input : chars -> result Z).
  (** Values on the horizontal axis *)
  Inductive xval := XLine (n : Z) | XDate (d : D) | XSeconds (f : F).
  (** --start and --stop before and after they are parsed *)
  Inductive bound := BText (t : chars) | BVal (x : xval).
  (** use_timestamp, relative and _parse_timestamp *)
  Inductive mode := MLines | MDates | MEpoch | MRelative.

  (** 248-280 first_parse_timestamp *)
  Definition first_time (time : option chars) (line : Z) : result (mode * xval) :=
    match time with
    | None => Ok (MLines, XLine line)
    | Some t =>
        match date_of t with
        | Some d => Ok (MDates, XDate d)
        | None =>
            match float_of t with
            | None => Ok (MLines, XLine line)
            | Some f =>
                if large f then
                  match from_seconds f with
                  | Ok d => Ok (MEpoch, XDate d)
                  | Err ValueError => Ok (MLines, XLine line)
                  | Err e => Err e
                  end
                else Ok (MRelative, XSeconds f)
            end
        end
    end.
  (** 288-302 _parse_timestamp; without a text strptime and float raise TypeError *)
  Definition next_time (m : mode) (time : option chars) (line : Z) : result xval :=
    match m with
    | MLines => Ok (XLine line)
    | _ =>
        match time with
        | None => Err TypeError
        | Some t =>
            match m with
            | MDates => match date_of t with Some d => Ok (XDate d) | None => Err ValueError end
            | MEpoch => match float_of t with Some f => let* d := from_seconds f in Ok (XDate d) | None => Err ValueError end
            | _ => match float_of t with Some f => Ok (XSeconds f) | None => Err ValueError end
            end
        end
    end.
  (** 137-151 init_start_stop *)
  Definition user_input (m : mode) (t : chars) (x : xval) : result xval :=
    match m with
    | MLines => let* n := int_input t in Ok (XLine n)
    | MRelative => let* f := relative_input t in Ok (XSeconds f)
    | _ => match x with XDate d => let* d' := absolute_input t d in Ok (XDate d') | _ => Err TypeError end
    end.
  Definition init_start_stop (m : mode) (x : xval) (start stop : option chars) : result (option bound * option bound) :=
    let* (a, x') := match start with Some t => let* s := user_input m t x in Ok (Some (BVal s), s) | None => Ok (None, x) end in
    let* b := match stop with Some t => let* s := user_input m t x' in Ok (Some (BVal s)) | None => Ok None end in
    Ok (a, b).
  (** x < y *)
  Definition x_lt (x y : xval) : result bool :=
    match x, y with
    | XLine a, XLine b => Ok (a <? b)
    | XDate a, XDate b => Ok (date_ltb a b)
    | XSeconds a, XSeconds b => Ok (float_ltb a b)
    | _, _ => Err TypeError
    end.
  Definition too_early (x : xval) (start : option bound) : result bool :=
    match start with None => Ok false | Some (BVal s) => x_lt x s | Some (BText _) => Err TypeError end.
  Definition too_late (x : xval) (stop : option bound) : result bool :=
    match stop with None => Ok false | Some (BVal s) => x_lt s x | Some (BText _) => Err TypeError end.

  (** ** The loop *)
  Record state := mkState { st_format : option format; st_mode : option mode; st_start : option bound; st_stop : option bound; st_line : Z }.
  (** 282-291 parse_timestamp *)
  Definition text_of (b : option bound) : option chars := match b with Some (BText t) => Some t | _ => None end.
  Definition parse_timestamp (st : state) (time : option chars) : result (state * xval) :=
    match st_mode st with
    | Some m => let* x := next_time m time (st_line st) in Ok (st, x)
    | None =>
        let* (m, x) := first_time time (st_line st) in
        let* (a, b) := init_start_stop m x (text_of (st_start st)) (text_of (st_stop st)) in
        Ok (mkState (st_format st) (Some m) a b (st_line st), x)
    end.
  (** 372-384: the format that is used from now on, and the match *)
  Definition detect_format (f : option format) (line : chars) : option format * option caps :=
    match f with
    | Some f' => (f, re_match (format_re f') line)
    | None =>
        match re_match plot_candump line with
        | Some c => (Some Candump, Some c)
        | None => match re_match plot_log line with Some c => (Some Log, Some c) | None => (None, None) end
        end
    end.
  Definition next_line (st : state) : state := mkState (st_format st) (st_mode st) (st_start st) (st_stop st) (st_line st + 1).
  Definition with_format (st : state) (f : option format) : state := mkState f (st_mode st) (st_start st) (st_stop st) (st_line st).
  (** What the plotter is told: add_msg and failed_to_parse_line *)
  Inductive event := Frame (x : xval) (id : Z) (data : list Z) | Bad (line : Z) (t : chars).
  Definition tell (e : event) (r : list event * option exn) : list event * option exn := (e :: fst r, snd r).
  (** 360-400; what readline returns ends with a line end or is the last line *)
  Fixpoint read (st : state) (lines : list chars) : list event * option exn :=
    match lines with
    | [] => ([], None)
    | l :: r =>
        let line := strip l in
        match line with
        | [] => read st r
        | _ =>
            let '(f, mo) := detect_format (st_format st) line in
            let st := with_format st f in
            match mo with
            | Some c =>
                match (let* (time, id, data) := mo_unpack c in
                       let* (st', x) := parse_timestamp st time in
                       let* early := too_early x (st_start st') in
                       let* late := if early then Ok false else too_late x (st_stop st') in
                       Ok (st', x, id, data, early, late)) with
                | Err e => ([], Some e)
                | Ok (st', x, id, data, early, late) =>
                    if early then read (next_line st') r
                    else if late then ([], None)
                    else tell (Frame x id data) (read (next_line st') r)
                end
            | None =>
                match re_match plot_decode line with
                | Some _ => read st r
                | None => tell (Bad (st_line st) line) (read (next_line st) r)
                end
            end
        end
    end.
  (** 349-353: --show-invalid-syntax, --show-errors and --line-numbers all ask for line numbers *)
  Definition begin (line_numbers : bool) (start stop : option chars) : state :=
    mkState None (if line_numbers then Some MLines else None) (option_map BText start) (option_map BText stop) 1.
End Times.
