(** DecodeCmd: model of the decode command, src/cantools/subparsers/decode.py and
    src/cantools/subparsers/__utils__.py.

    Parameters: the text of a float (repr), the units of the signals and the text of a DecodeError.  Loading the
    database, argument parsing and the encodings of standard input and output are not modelled. *)
From Coq Require Import Ascii Floats.SpecFloat.
From Verif Require Import Base PyNum Conversion Signal Message Container Database CSource CNames Regex Logreader DecText.
Local Open Scope string_scope.
Local Open Scope Z_scope.
Local Open Scope list_scope.

(** str.join *)
Fixpoint join (sep : chars) (l : list chars) : chars :=
  match l with [] => [] | [x] => x | x :: r => x ++ sep ++ join sep r end.
(** The formats {:x} and {:0wx} for numbers that are not negative, and bytes.hex *)
Definition hexl_digit (n : Z) : ascii := nth (Z.to_nat n) (txt "0123456789abcdef") "0"%char.
Fixpoint hexl (w : nat) (n : Z) : chars := match w with O => [] | S k => hexl k (n / 16) ++ [hexl_digit (n mod 16)] end.
Definition hex_text (w : nat) (n : Z) : chars := hexl (Nat.max w (Z.to_nat (Z.log2 n / 4 + 1))) n.
Definition bytes_hex (sep : chars) (l : list Z) : chars := join sep (map (hexl 2) l).
Definition nl : chars := ["010"%char].
(** str.strip() and str.replace('\n', '\n    ') *)
Definition strip_space (l : chars) : chars := rev (drop_while is_space (rev (drop_while is_space l))).
Definition indent_lines (l : chars) : chars := flat_map (fun c => if Ascii.eqb c "010" then nl ++ txt "    " else [c]) l.

(** decode.py:18-21 and --single-line *)
Record options := mkOptions { o_choices : bool; o_single : bool; o_containers : bool; o_lenient : bool }.

Section Cmd.
  Context (float_text : spec_float -> chars) (unit_of : signal -> option chars) (explain : entry -> list Z -> chars).

  (** str() of a decoded value *)
  Definition value_text (v : value) : chars :=
    match v with
    | VNum (NInt z) => decimal z
    | VNum (NFlt f) => float_text f
    | VStr s | VNamed _ s => txt s
    end.
  (** __utils__.py:21-43 [format_signals] *)
  Definition format_signal (s : signal) (v : value) : chars :=
    match unit_of s, v with
    | Some u, VNum _ => txt (s_name s) ++ txt ": " ++ value_text v ++ txt " " ++ u
    | _, _ => txt (s_name s) ++ txt ": " ++ value_text v
    end.
  Definition format_signals (m : message) (d : list (string * value)) : list chars :=
    flat_map (fun s => match sget d (s_name s) with Some v => [format_signal s v] | None => [] end) (m_signals m).
  (** __utils__.py:45-48 [_format_message_single_line] *)
  Definition message_single (name : string) (items : list chars) : chars :=
    txt " " ++ txt name ++ txt "(" ++ join (txt ", ") items ++ txt ")".
  (** __utils__.py:14-18 and 51-59 [_format_message_multi_line] *)
  Definition message_multi (name : string) (items : list chars) : chars :=
    nl ++ txt name ++ txt "(" ++ nl ++ join (txt "," ++ nl) (map (fun i => txt "    " ++ i) items) ++ nl ++ txt ")".
  (** __utils__.py:177-185 [format_message] *)
  Definition format_message (m : message) (d : list (string * value)) (single : bool) : chars :=
    if single then message_single (m_name m) (format_signals m d) else message_multi (m_name m) (format_signals m d).

  (** __utils__.py:61-82 [_format_container_single_line] *)
  Definition contained_single (u : (Z + contained) * list Z) (d : (Z + contained) * payload) : chars :=
    match d with
    | (inr x, PBytes b) => txt (m_name (ct_msg x)) ++ txt ": Undecodable data: " ++ bytes_hex (txt " ") b
    | (inr x, PDict r) => message_single (m_name (ct_msg x)) (format_signals (ct_msg x) r)
    | (inl id, _) => txt "(Unknown contained message: Header ID: 0x" ++ hex_text 1 id ++ txt ", Data: " ++ bytes_hex [] (snd u) ++ txt ")"
    end.
  Definition header_of (x : contained) : Z := match ct_header x with Some h => h | None => 0 end.
  (** __utils__.py:84-111 [_format_container_multi_line] *)
  Definition contained_multi (u : (Z + contained) * list Z) (d : (Z + contained) * payload) : chars :=
    match d with
    | (inr x, PBytes b) =>
        txt "    " ++ hex_text 6 (header_of x) ++ txt "##" ++ bytes_hex [] b ++ txt " ::" ++ nl ++
        txt "    " ++ txt (m_name (ct_msg x)) ++ txt ": Undecodable data"
    | (inr x, PDict r) =>
        txt "    " ++ strip_space (indent_lines (hex_text 6 (header_of x) ++ txt "##" ++ bytes_hex [] (snd u) ++ txt " ::" ++
          message_multi (m_name (ct_msg x)) (format_signals (ct_msg x) r)))
    | (inl id, _) =>
        txt "    " ++ hex_text 6 id ++ txt "##" ++ bytes_hex [] (snd u) ++ txt " ::" ++ nl ++ txt "    Unknown contained message"
    end.
  (** __utils__.py:148-175 [format_container_message] *)
  Definition format_container (e : entry) (data : list Z) (o : options) : result chars :=
    match (let* u := unpack_container (e_container e) data (o_lenient o) in
           let* d := decode_container (e_container e) data (o_choices o) true (o_lenient o) (o_lenient o) in Ok (u, d)) with
    | Ok (u, d) =>
        let name := m_name (e_msg e) in
        if o_single o then Ok (txt " " ++ txt name ++ txt "(" ++ join (txt ", ") (map (fun p => contained_single (fst p) (snd p)) (combine u d)) ++ txt ")")
        else Ok (nl ++ txt name ++ txt "(" ++ nl ++ join (txt "," ++ nl) (map (fun p => contained_multi (fst p) (snd p)) (combine u d)) ++ nl ++ txt ")")
    | Err DecodeError => Ok (txt " " ++ explain e data)
    | Err x => Err x
    end.
  (** __utils__.py:113-146 [format_message_by_frame_id] *)
  Definition format_frame (db : database) (id : Z) (data : list Z) (o : options) : result chars :=
    match get_message_by_frame_id db id false with
    | Err KeyError => Ok (txt " Unknown frame id " ++ decimal id ++ txt " (0x" ++ hex_text 1 id ++ txt ")")
    | Err x => Err x
    | Ok e =>
        if is_container (e_container e) then
          if o_containers o then format_container e data o
          else Ok (txt " Frame 0x" ++ hex_text 1 id ++ txt " is a container message")
        else match decode (e_msg e) data (o_choices o) true (o_lenient o) (o_lenient o) with
             | Ok d => Ok (format_message (e_msg e) d (o_single o))
             | Err DecodeError => Ok (txt " " ++ explain e data)
             | Err x => Err x
             end
    end.

  (** decode.py:22-36 [_do_decode]: the printed lines, and the exception that ends the command *)
  Fixpoint print_lines (db : database) (o : options) (ys : list (chars * option dataframe)) (e : option exn) : list chars * option exn :=
    match ys with
    | [] => ([], e)
    | (l, f) :: r =>
        match (match f with
               | None => Ok l
               | Some f => let* t := format_frame db (df_id f) (df_data f) o in Ok (l ++ txt " ::" ++ t)
               end) with
        | Ok p => let (ps, e') := print_lines db o r e in (p :: ps, e')
        | Err x => ([], Some x)
        end
    end.
  Definition decode_command (db : database) (o : options) (lines : list chars) : list chars * option exn :=
    let (ys, e) := iterlines None true lines in print_lines db o ys e.
End Cmd.
