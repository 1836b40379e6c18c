(** FileCodec: the coding of messages that are read from DBC, KCD and SYM files: the signal and message objects that the
    loaders construct from what a file says (database/can/formats/dbc.py:1736-1760 and 1955-1973, kcd.py:128-146 and
    234-246, sym.py:414-434 and 687-703).  All three give unused_bit_pattern 0xff and, by default, strict=True and signals
    sorted by start bit.

    [value] is the binary64 number that an abstract float stands for. *)
From Coq Require Import Ascii.
From Verif Require Import Base PyNum Conversion Signal Message.
From Verif Require DbcDump.

Section FileCodec.
  Context {FL : DbcDump.Floats} (value : DbcDump.F -> float).
  Definition num_of (n : DbcDump.num) : num := match n with DbcDump.DInt z => NInt z | DbcDump.DFloat f => NFlt (value f) end.
  Definition text_of (t : list ascii) : string := string_of_list_ascii t.
  (** Choices are named values: dbc.py:1450, kcd.py:116, sym.py:300 *)
  Definition choices_of (l : list (Z * list ascii)) : choices_t := map (fun p => (fst p, ChNamed (fst p) (text_of (snd p)))) l.
  Definition codec_signal (s : DbcDump.dsignal) : result signal :=
    let* c := factory (num_of (DbcDump.s_scale s)) (num_of (DbcDump.s_offset s)) (option_map choices_of (DbcDump.s_choices s)) (DbcDump.s_float s) in
    Ok (mkSignal (text_of (DbcDump.s_name s)) (DbcDump.s_start s) (DbcDump.s_length s) (DbcDump.s_big s) (DbcDump.s_signed s) c
          (option_map num_of (DbcDump.s_min s)) (option_map num_of (DbcDump.s_max s)) (DbcDump.s_is_mux s) (DbcDump.s_mux_ids s)
          (option_map text_of (DbcDump.s_mux_signal s))).
  Definition codec_message (m : DbcDump.dmessage) : result message :=
    let* l := mapM codec_signal (DbcDump.m_signals m) in
    mk_message (DbcDump.m_id m) (DbcDump.m_extended m) (text_of (DbcDump.m_name m)) (DbcDump.m_length m) 255 l true SortDefault.
End FileCodec.
