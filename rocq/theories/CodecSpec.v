(** CodecSpec: what Message.encode and Message.decode are documented to compute, for whole
    messages.  Refers to the object attributes (Signal, Conversion, Message) only, not to the codec
    tree, formats or bitstruct. *)
From Coq Require Import Floats.SpecFloat.
From Verif Require Import Base PyNum Conversion Signal Formats Message LayoutSpec.

(** A conversion object comes from [BaseConversion.factory]. *)
Definition built_conv (c : conversion) : Prop :=
  exists scale offset ch fl, factory scale offset ch fl = Ok c.

(** A message accepted by the constructor with strict=True and the default signal order.  Signal
    names are unique and start bits are not negative (see DESIGN.md for both assumptions). *)
Definition strict_message (m : message) : Prop :=
  exists fid ext name len unused sigs,
    mk_message fid ext name len unused sigs true SortDefault = Ok m /\
    0 <= len /\ names_unique sigs /\
    (forall s, In s sigs -> 0 <= s_start s) /\
    (forall s, In s sigs -> built_conv (s_conv s)).

(** All signals that can be selected together fit and are disjoint. *)
Definition layout_ok (all : list signal) (n : Z) : Prop :=
  forall mv s, active all mv s ->
    sig_fits n s /\ forall t, active all mv t -> s <> t -> sig_disjoint s t.

(** The number of a label in a value table; of several equal labels the last entry counts. *)
Fixpoint label_number (ch : choices_t) (l : string) : option Z :=
  match ch with
  | [] => None
  | (z, c) :: r =>
      match label_number r l with
      | Some y => Some y
      | None => if String.eqb (choice_str c) l then Some z else None
      end
  end.

(** Multiplexer id denoted by the value given for (or decoded from) a multiplexer signal. *)
Definition selector (s : signal) (v : value) : option Z :=
  match v with
  | VNum n => match py_int n with Ok z => Some z | Err _ => None end
  | VStr l | VNamed _ l => match conv_choices (s_conv s) with
                           | Some ch => label_number ch l
                           | None => None
                           end
  end.

Definition find_signal (all : list signal) (name : string) : option signal :=
  find (fun s => String.eqb (s_name s) name) all.

(** Selectors contained in a dictionary of values. *)
Definition selectors (all : list signal) (d : list (string * value)) (name : string) : option Z :=
  match find_signal all name, sget d name with
  | Some s, Some v => selector s v
  | _, _ => None
  end.

(** Ids for which a multiplexer has a branch: those of its children and of its value table. *)
Definition known_id (all : list signal) (m : signal) (i : Z) : Prop :=
  (exists c ids, In c all /\ s_mux_sig c = Some (s_name m) /\ s_mux_ids c = Some ids /\ In i ids) \/
  (exists ch, conv_choices (s_conv m) = Some ch /\ In i (map fst ch)).

(** A multiplexer that selects anything at all must select a known id. *)
Definition selector_known (all : list signal) (mv : string -> option Z) (m : signal) : Prop :=
  s_is_mux m = true -> (exists i, known_id all m i) ->
  exists v, mv (s_name m) = Some v /\ known_id all m v.

(** The raw value sent for the value [v] of a signal. *)
Definition raw_value (s : signal) (scaling : bool) (v : value) (raw : num) : Prop :=
  match v with
  | VNum n =>
      if scaling then numeric_scaled_to_raw (s_conv s) n = Ok raw
      else if conv_is_float (s_conv s) then raw = n
      else exists z, py_round n = Ok z /\ raw = NInt z
  | VStr l => exists ch z, conv_choices (s_conv s) = Some ch /\ label_number ch l = Some z /\ raw = NInt z
  | VNamed z l =>
      exists ch c, conv_choices (s_conv s) = Some ch /\ zget ch z = Some c /\ raw = NInt z /\
                   named_eq z l (choice_value c) = true
  end.

(** The value shown for the raw value of a signal. *)
Definition shown_value (s : signal) (decode_choices scaling : bool) (raw : num) (v : value) : Prop :=
  match conv_choices (s_conv s), decode_choices with
  | Some ch, true =>
      match choices_lookup ch raw with
      | Some c => v = choice_value c
      | None => if scaling then raw_to_scaled (s_conv s) raw false = Ok v else v = VNum raw
      end
  | _, _ => if scaling then raw_to_scaled (s_conv s) raw false = Ok v else v = VNum raw
  end.
