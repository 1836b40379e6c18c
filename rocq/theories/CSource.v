(** CSource: model of src/cantools/database/can/c_source.py: the pack and unpack functions that are
    generated for a message, as statements with the C semantics of the emitted text, the range check,
    the choice names and the identifiers.

    The statements stand for the emitted lines; the text itself (indentation, comments, declarations,
    macros) is not modelled.  [None] is undefined behaviour in C. *)
From Coq Require Import Ascii.
From Verif Require Import Base PyNum Conversion Signal Formats Message LayoutSpec CodecSpec.

(** ** Identifiers (ASCII strings) *)

Definition chars := list ascii.
Definition in_range (lo hi c : ascii) : bool := (N_of_ascii lo <=? N_of_ascii c)%N && (N_of_ascii c <=? N_of_ascii hi)%N.
Definition is_upper : ascii -> bool := in_range "A" "Z".
Definition is_lower : ascii -> bool := in_range "a" "z".
Definition is_digit : ascii -> bool := in_range "0" "9".
Definition underscore : ascii := "_"%char.
Definition newline : ascii := "010"%char.
Definition to_lower (c : ascii) : ascii := if is_upper c then ascii_of_N (N_of_ascii c + 32) else c.
Definition to_upper (c : ascii) : ascii := if is_lower c then ascii_of_N (N_of_ascii c - 32) else c.

(** c_source.py:839-844 [_canonical]: re.sub(r'[^a-zA-Z0-9]', '_', value) *)
Definition canonical_char (c : ascii) : ascii := if is_upper c || is_lower c || is_digit c then c else underscore.
Definition canonical (l : chars) : chars := map canonical_char l.

(** The longest prefix of lower case letters *)
Fixpoint span_lower (l : chars) : chars * chars :=
  match l with
  | [] => ([], [])
  | c :: r => if is_lower c then let (a, b) := span_lower r in (c :: a, b) else ([], l)
  end.

(** re.sub(r'(.)([A-Z][a-z]+)', r'\1_\2', value): matches from left to right, a match is not searched again. *)
Fixpoint split_words (fuel : nat) (l : chars) : chars :=
  match fuel with
  | O => l
  | S f =>
      match l with
      | a :: b :: c :: r =>
          if negb (Ascii.eqb a newline) && is_upper b && is_lower c then
            let (low, rest) := span_lower r in
            a :: underscore :: b :: c :: low ++ split_words f rest
          else a :: split_words f (b :: c :: r)
      | _ => l
      end
  end.

(** re.sub(r'(_+)', '_', value) *)
Fixpoint squeeze (l : chars) : chars :=
  match l with
  | a :: r => match r with
              | b :: _ => if Ascii.eqb a underscore && Ascii.eqb b underscore then squeeze r else a :: squeeze r
              | [] => [a]
              end
  | [] => []
  end.

(** re.sub(r'([a-z0-9])([A-Z])', r'\1_\2', value) *)
Fixpoint split_case (l : chars) : chars :=
  match l with
  | a :: r => match r with
              | b :: _ => if (is_lower a || is_digit a) && is_upper b then a :: underscore :: split_case r else a :: split_case r
              | [] => [a]
              end
  | [] => []
  end.

(** c_source.py:847-853 [camel_to_snake_case] *)
Definition snake_chars (l : chars) : chars :=
  canonical (map to_lower (split_case (squeeze (split_words (List.length l) l)))).
Definition snake (s : string) : string := string_of_list_ascii (snake_chars (list_ascii_of_string s)).

(** ** C types *)

(** c_source.py:636-645 [type_length] *)
Definition type_length (s : signal) : Z :=
  if s_length s <=? 8 then 8 else if s_length s <=? 16 then 16 else if s_length s <=? 32 then 32 else 64.

Definition is_float (s : signal) : bool := conv_is_float (s_conv s).

(** c_source.py:647-661 [type_name]: size in bits of the struct member.  Float signals of 32 bits are
    float, all others double. *)
Definition member_size (s : signal) : Z :=
  if is_float s then (if s_length s =? 32 then 32 else 64) else type_length s.

(** c_source.py:626-630 [snake_name] *)
Definition member (s : signal) : string := snake (s_name s).

(** ** Emitted statements *)
Inductive dir := Left | Right.

Inductive cstmt :=
| CCast (n : string) (w : Z)                    (* n = (uint<w>_t)src_p->n; *)
| CMemcpyFrom (n : string) (w size : Z)         (* memcpy(&n, &src_p->n, sizeof(n)); the member has [size] bits *)
| CPackOr (i : Z) (d : dir) (w : Z) (local : bool) (n : string) (shift mask : Z)
                                                (* dst_p[i] |= pack_<d>_shift_u<w>(n or src_p->n, shift, mask); *)
| CUnpack (local first : bool) (n : string) (d : dir) (w i shift mask : Z)
                                                (* n or dst_p->n (= or |=) unpack_<d>_shift_u<w>(src_p[i], shift, mask); *)
| CMemcpyTo (n : string) (w size : Z)           (* memcpy(&dst_p->n, &n, sizeof(dst_p->n)); *)
| CSignExtend (n : string) (w shift mask : Z)   (* if ((n & (1 << shift)) != 0) { n |= mask; } *)
| CCastTo (n : string) (w : Z)                  (* dst_p->n = (int<w>_t)n; *)
| CSwitch (n : string) (w : Z) (signed : bool) (cases : list (Z * list cstmt)).
                                                (* switch (n) { case k: ...; break; ... default: break; } *)

(** c_source.py:778-822 [segments]: (byte index, shift, direction, mask).  The while loop ends after at
    most [length] rounds. *)
Definition orient (invert : bool) (shift : Z) : Z * dir :=
  if invert then (if shift <? 0 then (- shift, Left) else (shift, Right))
  else if shift <? 0 then (- shift, Right) else (shift, Left).
Fixpoint seg_loop (fuel : nat) (big : bool) (len index pos left : Z) : list (Z * Z * Z) :=
  match fuel with
  | O => []
  | S f =>
      if 0 <? left then
        let '(length, pos', shift, mask) :=
          if big then
            if pos + 1 <=? left then (pos + 1, 7, - (left - (pos + 1)), 2 ^ (pos + 1) - 1)
            else (left, pos, pos - left + 1, (2 ^ left - 1) * 2 ^ (pos - left + 1))
          else
            if 8 - pos <=? left then (8 - pos, 0, left - len + pos, (2 ^ (8 - pos) - 1) * 2 ^ pos)
            else (left, pos, left - len + pos, (2 ^ left - 1) * 2 ^ pos) in
        (index, shift, mask) :: seg_loop f big len (index + 1) pos' (left - length)
      else []
  end.
Definition raw_segments (s : signal) : list (Z * Z * Z) :=
  seg_loop (Z.to_nat (s_length s)) (s_big s) (s_length s) (s_start s / 8) (s_start s mod 8) (s_length s).
Definition segments (s : signal) (invert : bool) : list (Z * Z * dir * Z) :=
  map (fun g => let '(i, sh, mask) := g in let (sh', d) := orient invert sh in (i, sh', d, mask)) (raw_segments s).

(** c_source.py:971-1002 [_format_pack_code_signal] *)
Definition pack_signal (s : signal) : list cstmt :=
  let local := is_float s || s_signed s in
  (if is_float s then [CMemcpyFrom (member s) (type_length s) (member_size s)]
   else if s_signed s then [CCast (member s) (type_length s)] else []) ++
  map (fun g => let '(i, sh, d, mask) := g in CPackOr i d (type_length s) local (member s) sh mask) (segments s false).

(** c_source.py:1093-1138 [_format_unpack_code_signal] *)
Definition unpack_signal (s : signal) : list cstmt :=
  let local := is_float s || s_signed s in
  let lines := map (fun g => let '(i, sh, d, mask) := g in
                             fun first => CUnpack local first (member s) d (type_length s) i sh mask) (segments s true) in
  match lines with [] => [] | l :: r => l true :: map (fun x => x false) r end ++
  (if is_float s then [CMemcpyTo (member s) (type_length s) (member_size s)]
   else if s_signed s then
     (if 2 ^ (type_length s - s_length s) - 1 =? 0 then []
      else [CSignExtend (member s) (type_length s) (s_length s - 1) ((2 ^ (type_length s - s_length s) - 1) * 2 ^ s_length s)]) ++
     [CCastTo (member s) (type_length s)]
   else []).

(** sorted(multiplexed_signals.items()); the ids are distinct *)
Definition sort_cases {A} (l : list (Z * A)) : list (Z * A) := sorted_py (fun a b => fst a <=? fst b) l.

(** c_source.py:930-968 [_format_pack_code_mux] and 1005-1036 [_format_pack_code_level].  A name that is
    not found (KeyError in get_signal_by_name, 832-836) does not occur in the tree of a message. *)
Definition signal_code (f : signal -> list cstmt) (all : list signal) (n : string) : list cstmt :=
  match find_signal all n with Some s => f s | None => [] end.
Definition switch_on (all : list signal) (n : string) (cases : list (Z * list cstmt)) : list cstmt :=
  match find_signal all n with Some s => [CSwitch (member s) (type_length s) (s_signed s) (sort_cases cases)] | None => [] end.
Fixpoint pack_level (all : list signal) (t : stree) : list cstmt :=
  match t with
  | STree nodes =>
      flat_map (fun nd => signal_code pack_signal all (fst nd)) nodes ++
      (fix go (ns : list (string * option (list (Z * stree)))) : list cstmt :=
         match ns with
         | [] => []
         | (n, None) :: r => go r
         | (n, Some cs) :: r =>
             switch_on all n
               ((fix kids (cs : list (Z * stree)) : list (Z * list cstmt) :=
                   match cs with [] => [] | (i, t') :: cr => (i, pack_level all t') :: kids cr end) cs) ++ go r
         end) nodes
  end.

(** c_source.py:1054-1090 [_format_unpack_code_mux] and 1141-1187 [_format_unpack_code_level].  [recv] is
    _is_receiver (1471-1472) for the selected node. *)
Fixpoint unpack_level (all : list signal) (recv : string -> bool) (t : stree) : list cstmt :=
  match t with
  | STree nodes =>
      flat_map (fun nd => match snd nd with
                          | None => if recv (fst nd) then signal_code unpack_signal all (fst nd) else []
                          | Some _ => signal_code unpack_signal all (fst nd)
                          end) nodes ++
      (fix go (ns : list (string * option (list (Z * stree)))) : list cstmt :=
         match ns with
         | [] => []
         | (n, None) :: r => go r
         | (n, Some cs) :: r =>
             switch_on all n
               ((fix kids (cs : list (Z * stree)) : list (Z * list cstmt) :=
                   match cs with [] => [] | (i, t') :: cr => (i, unpack_level all recv t') :: kids cr end) cs) ++ go r
         end) nodes
  end.

(** ** Meaning of the statements *)

(** Objects are represented by their bits as an unsigned number (two's complement, IEEE 754).  Reading a
    local variable that was not assigned is undefined. *)
Record cstate := mkCstate { c_mem : string -> Z; c_loc : string -> option Z; c_buf : list Z }.

Definition fset {A} (f : string -> A) (n : string) (v : A) : string -> A := fun k => if String.eqb k n then v else f k.
Definition set_byte (l : list Z) (i v : Z) : option (list Z) :=
  if (0 <=? i) && (i <? zlen l) then Some (firstn (Z.to_nat i) l ++ v :: skipn (S (Z.to_nat i)) l) else None.
Definition get_byte (l : list Z) (i : Z) : option Z :=
  if (0 <=? i) && (i <? zlen l) then Some (nth (Z.to_nat i) l 0) else None.

(** [v << n] and [v >> n] for v of type uint<w>_t, 0 <= v: uint8_t and uint16_t are promoted to int. *)
Definition c_shl (w v n : Z) : option Z :=
  if w <=? 16 then (if (n <? 32) && (v * 2 ^ n <? 2 ^ 31) then Some (v * 2 ^ n) else None)
  else if n <? w then Some ((v * 2 ^ n) mod 2 ^ w) else None.
Definition c_shr (w v n : Z) : option Z := if n <? Z.max 32 w then Some (v / 2 ^ n) else None.

(** The helper functions: PACK_HELPER_LEFT_SHIFT_FMT ... UNPACK_HELPER_RIGHT_SHIFT_FMT, c_source.py:469-507.
    Arguments are converted to the parameter types. *)
Definition pack_shift (d : dir) (w v shift mask : Z) : option Z :=
  option_map (fun r => Z.land (r mod 256) (mask mod 256))
    (match d with Left => c_shl w (v mod 2 ^ w) (shift mod 256) | Right => c_shr w (v mod 2 ^ w) (shift mod 256) end).
Definition unpack_shift (d : dir) (w v shift mask : Z) : option Z :=
  option_map (fun r => r mod 2 ^ w)
    (match d with
     | Left => c_shl w (Z.land v (mask mod 256)) (shift mod 256)
     | Right => c_shr w (Z.land v (mask mod 256)) (shift mod 256)
     end).

(** Value of an integer object *)
Definition c_int (w : Z) (signed : bool) (rep : Z) : Z :=
  if signed && (2 ^ (w - 1) <=? rep) then rep - 2 ^ w else rep.

(** A case label is converted to the promoted type of the switch expression. *)
Definition promoted_width (w : Z) (signed : bool) : Z := Z.max 32 w.
Definition promoted_signed (w : Z) (signed : bool) : bool := signed || (w <=? 16).
Definition case_const (w : Z) (signed : bool) (k : Z) : Z :=
  c_int (promoted_width w signed) (promoted_signed w signed) (k mod 2 ^ promoted_width w signed).

(** memcpy of [w] bits from an object of [size] bits: the first bytes in memory.  Reading beyond the
    object is undefined. *)
Definition memcpy_bits (little_host : bool) (rep size w : Z) : option Z :=
  if size <? w then None else Some (if little_host then rep mod 2 ^ w else rep / 2 ^ (size - w)).

Fixpoint cexec (host : bool) (st : cstmt) (e : cstate) : option cstate :=
  match st with
  | CCast n w => Some (mkCstate (c_mem e) (fset (c_loc e) n (Some (c_mem e n mod 2 ^ w))) (c_buf e))
  | CMemcpyFrom n w size =>
      option_map (fun v => mkCstate (c_mem e) (fset (c_loc e) n (Some v)) (c_buf e)) (memcpy_bits host (c_mem e n) size w)
  | CPackOr i d w local n shift mask =>
      match (if local then c_loc e n else Some (c_mem e n)), get_byte (c_buf e) i with
      | Some v, Some b =>
          match pack_shift d w v shift mask with
          | Some x => option_map (mkCstate (c_mem e) (c_loc e)) (set_byte (c_buf e) i (Z.lor b x))
          | None => None
          end
      | _, _ => None
      end
  | CUnpack local first n d w i shift mask =>
      match get_byte (c_buf e) i with
      | Some b =>
          match unpack_shift d w b shift mask with
          | Some x =>
              match (if first then Some 0 else if local then c_loc e n else Some (c_mem e n)) with
              | Some v =>
                  Some (if local then mkCstate (c_mem e) (fset (c_loc e) n (Some (Z.lor v x))) (c_buf e)
                        else mkCstate (fset (c_mem e) n (Z.lor v x)) (c_loc e) (c_buf e))
              | None => None
              end
          | None => None
          end
      | None => None
      end
  | CMemcpyTo n w size =>
      match c_loc e n with
      | Some v => option_map (fun v => mkCstate (fset (c_mem e) n v) (c_loc e) (c_buf e)) (memcpy_bits host v w size)
      | None => None
      end
  | CSignExtend n w shift mask =>
      match c_loc e n, c_shl (Z.max 32 w) 1 shift with
      | Some v, Some one =>
          Some (mkCstate (c_mem e) (fset (c_loc e) n (Some (if Z.land v one =? 0 then v else Z.lor v mask mod 2 ^ w))) (c_buf e))
      | _, _ => None
      end
  | CCastTo n w =>
      match c_loc e n with
      | Some v => Some (mkCstate (fset (c_mem e) n (v mod 2 ^ w)) (c_loc e) (c_buf e))
      | None => None
      end
  | CSwitch n w signed cases =>
      (fix pick (cs : list (Z * list cstmt)) : option cstate :=
         match cs with
         | [] => Some e
         | (k, body) :: r =>
             if case_const w signed k =? c_int w signed (c_mem e n) then
               (fix run (b : list cstmt) (e : cstate) : option cstate :=
                  match b with
                  | [] => Some e
                  | x :: b' => match cexec host x e with Some e' => run b' e' | None => None end
                  end) body e
             else pick r
         end) cases
  end.
Fixpoint crun (host : bool) (b : list cstmt) (e : cstate) : option cstate :=
  match b with
  | [] => Some e
  | x :: b' => match cexec host x e with Some e' => crun host b' e' | None => None end
  end.

Definition no_locals : string -> option Z := fun _ => None.
Definition einval : Z := 22.

(** DEFINITION_PACK_FMT, c_source.py:509-526, EMPTY_DEFINITION_FMT 578-602: the returned value and the
    buffer afterwards.  [size] is the argument. *)
Definition c_pack (host : bool) (m : message) (src : string -> Z) (dst : list Z) (size : Z) : option (Z * list Z) :=
  if 0 <? m_length m then
    if size <? m_length m then Some (- einval, dst)
    else if zlen dst <? m_length m then None
    else
      let buf := repeat 0 (Z.to_nat (m_length m)) ++ skipn (Z.to_nat (m_length m)) dst in
      option_map (fun e => (m_length m, c_buf e))
        (crun host (pack_level (m_signals m) (m_tree m)) (mkCstate src no_locals buf))
  else Some (0, dst).

(** DEFINITION_UNPACK_FMT, c_source.py:528-543 *)
Definition c_unpack (host : bool) (recv : string -> bool) (m : message) (dst : string -> Z) (src : list Z) (size : Z)
  : option (Z * (string -> Z)) :=
  if 0 <? m_length m then
    if size <? m_length m then Some (- einval, dst)
    else
      option_map (fun e => (0, c_mem e))
        (crun host (unpack_level (m_signals m) recv (m_tree m)) (mkCstate dst no_locals src))
  else Some (0, dst).
