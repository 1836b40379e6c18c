(** Prop_Dbc: C48 and C56, the round trip of a CAN database through the text of a DBC file (formats/dbc.py dump_string, load_string). *)
From Coq Require Import Ascii Permutation.
From Verif Require Import Base CSource CNames DictLemmas Regex DecText DbcNames Prop_DbcNames DbcToken DbcLex DbcStmt DbcPieces DbcParse DbcGrammar DbcDump DbcLoad DbcTables DbcFit DbcWrite DbcRead DbcView DbcCore DbcSame DbcShort DbcGood DbcGoodFit DbcGoodRead.
Local Open Scope string_scope.
Local Open Scope Z_scope.
Local Open Scope list_scope.

Lemma pairs_impl {A B} (P Q : A -> B -> Prop) l l' : (forall x y, P x y -> Q x y) -> Forall2 P l l' -> Forall2 Q l l'.
Proof. intros H F. induction F; constructor; auto. Qed.
Section Dbc.
Context {FL : Floats} {LW : FloatLaws FL}.
Implicit Types (db : database) (m : dmessage) (s : dsignal).

(** list(set(ids)): each id once, in any order *)
Definition lists_set (set_list : list Z -> list Z) : Prop := forall l, NoDup (set_list l) /\ forall x, In x (set_list l) <-> In x l.

(** ** C56: the file that is written for a database is read as the same database. *)
Theorem C56_round_trip shorten set_list db : lists_set set_list -> good db = true ->
  exists text db', dump_string shorten db = Ok text /\ load_string set_list text = Ok db' /\ same_database db db'.
Proof. intros SL G. apply round_trip; assumption. Qed.

(** Long names: the names in the file are short and distinct, and the long names are read back. *)
Theorem C56_long_names set_list db : lists_set set_list -> good db = true ->
  exists text db', dump_string true db = Ok text /\ load_string set_list text = Ok db' /\
    map n_name (db_nodes db') = map n_name (db_nodes db) /\ map m_name (db_messages db') = map m_name (db_messages db) /\
    map fst (db_envvars db') = map fst (db_envvars db) /\
    Forall2 (fun m m' => Permutation (map s_name (m_signals m)) (map s_name (m_signals m'))) (db_messages db) (db_messages db').
Proof.
  intros SL G. destruct (round_trip true set_list SL db G) as (t & db' & D & L & S). exists t, db'. split; [exact D|]. split; [exact L|].
  destruct S as (_ & N & _ & M & _ & _ & E & _).
  assert (MP : forall {A B C} (P : A -> B -> Prop) (f : A -> C) (g : B -> C) l l', Forall2 P l l' -> (forall x y, P x y -> g y = f x) -> map g l' = map f l).
  { clear. intros A B C P f g l l' F H. induction F as [|x y l l' X F IH]; [reflexivity|]. cbn [map]. rewrite IH, (H _ _ X). reflexivity. }
  split; [|split; [|split]].
  - apply (MP _ _ _ _ _ _ _ _ N). intros x y (X & _). exact X.
  - apply (MP _ _ _ _ _ _ _ _ M). intros x y (_ & _ & X & _). exact X.
  - apply (MP _ _ _ _ _ _ _ _ E). intros x y (X & _). exact X.
  - clear - M MP. induction M as [|m m' l l' X F IH]; constructor; [|exact IH]. destruct X as (_ & _ & _ & _ & _ & _ & _ & _ & (k & P & F2) & _).
    transitivity (map s_name k); [apply Permutation_map, Permutation_sym, P|]. rewrite (MP _ _ _ _ s_name s_name _ _ F2); [apply Permutation_refl|]. intros x y (Y & _). exact Y.
Qed.

(** ** C48: what is kept of the messages *)
Definition limit_read (lo hi b : option num) : option num :=
  if no_limit lo && no_limit hi then None else Some (match b with Some n => n | None => DInt 0 end).
Theorem C48_message_attributes shorten set_list db : lists_set set_list -> good db = true ->
  exists text db', dump_string shorten db = Ok text /\ load_string set_list text = Ok db' /\
    Forall2 (fun m m' => m_id m' = m_id m /\ m_extended m' = m_extended m /\ m_senders m' = m_senders m /\ m_send_type m' = m_send_type m /\
                         m_j1939 m' = m_j1939 m /\ m_fd m' = m_fd m /\
                         (m_cycle_time m' = m_cycle_time m \/ m_cycle_time m = Some (AInt 0) /\ m_cycle_time m' = None) /\
                         exists l, Permutation l (m_signals m) /\
                           Forall2 (fun s s' => s_name s' = s_name s /\ s_min s' = limit_read (s_min s) (s_max s) (s_min s) /\
                                                s_max s' = limit_read (s_min s) (s_max s) (s_max s)) l (m_signals m'))
      (db_messages db) (db_messages db').
Proof.
  intros SL G. destruct (round_trip shorten set_list SL db G) as (t & db' & D & L & S). exists t, db'. split; [exact D|]. split; [exact L|].
  destruct S as (_ & _ & _ & M & _). eapply pairs_impl; [|exact M]. intros m m' (A1 & A2 & _ & _ & A3 & A4 & A5 & _ & (l & P & F) & A6 & A7 & _).
  repeat (split; [assumption|]). split.
  - rewrite A5. clear. destruct (m_cycle_time m) as [c|]; [|left; reflexivity]. destruct c as [i|f|x]; [|left; reflexivity|left; reflexivity].
    destruct (Z.eqb_spec i 0) as [E|E]; [|left; reflexivity]. right. rewrite E. split; reflexivity.
  - exists l. split; [exact P|]. eapply pairs_impl; [|exact F]. intros s s' (B1 & _ & _ & _ & _ & _ & _ & _ & _ & _ & B2 & B3 & _). unfold limit_read. auto.
Qed.
(** Limits that are numbers other than zero are read back as they are. *)
Theorem C48_limits lo hi : no_limit lo = false \/ no_limit hi = false -> (forall n, lo = Some n -> limit_read lo hi lo = Some n) /\ (forall n, hi = Some n -> limit_read lo hi hi = Some n).
Proof.
  intros H. unfold limit_read. assert (E : no_limit lo && no_limit hi = false) by (destruct H as [-> | ->]; rewrite ?andb_false_r; reflexivity). rewrite E.
  split; intros n ->; reflexivity.
Qed.
End Dbc.

(** ** A model of the float laws: a float is its text *)
Definition before_point (t : chars) : chars := fst (take_digits (snd (take_sign t))).
Definition text_finite (t : chars) : bool := number_token t && existsb (Ascii.eqb ".") t.
#[local] Instance TextFloats : Floats := {|
  F := chars;
  f_text t := t;
  f_read t := if existsb (Ascii.eqb ".") t then Some t else option_map (fun z => decimal z ++ txt ".0") (int_text t);
  f_int z := decimal z ++ txt ".0";
  f_trunc t := int_text (fst (take_sign t) ++ before_point t);
  f_is_int t z := chars_eqb t (decimal z ++ txt ".0");
  f_same := chars_eqb |}.
Lemma take_digits_app d r : forallb is_digit d = true -> (match r with c :: _ => is_digit c = false | [] => True end) -> take_digits (d ++ r) = (d, r).
Proof.
  induction d as [|c d IH]; intros D R.
  - cbn [app]. destruct r as [|c r]; [reflexivity|]. cbn [take_digits]. rewrite R. reflexivity.
  - cbn [forallb] in D. apply andb_true_iff in D. destruct D as [D1 D2]. cbn [app take_digits]. rewrite D1, (IH D2 R). reflexivity.
Qed.
Lemma decimal_sign z : take_sign (decimal z ++ txt ".0") = ((if z <? 0 then ["-"%char] else []), decimal (Z.abs z) ++ txt ".0").
Proof.
  destruct (Z.ltb_spec z 0) as [H|H].
  - rewrite (decimal_neg z H). cbn [app take_sign]. change (is_sign "-") with true. cbn iota. rewrite Z.abs_neq by lia. reflexivity.
  - rewrite Z.abs_eq by lia. pose proof (decimal_digits z H) as D. destruct (decimal z) as [|c r] eqn:E; [exfalso; exact (decimal_nonnil z E)|].
    cbn [forallb] in D. apply andb_true_iff in D. destruct D as [D1 D2]. cbn [app take_sign]. destruct (is_sign c) eqn:S; [|reflexivity].
    unfold is_sign in S. apply orb_true_iff in S. destruct S as [S|S]; apply Ascii.eqb_eq in S; subst c; discriminate D1.
Qed.
Lemma decimal_sign_text z : (if z <? 0 then ["-"%char] else []) ++ decimal (Z.abs z) = decimal z.
Proof. destruct (Z.ltb_spec z 0) as [H|H]; [rewrite (decimal_neg z H), Z.abs_neq by lia; reflexivity|rewrite Z.abs_eq by lia; reflexivity]. Qed.
Lemma point_digits z : take_digits (decimal (Z.abs z) ++ txt ".0") = (decimal (Z.abs z), txt ".0").
Proof. apply take_digits_app; [apply decimal_digits; lia|reflexivity]. Qed.
Lemma float_token z : number_token (decimal z ++ txt ".0") = true.
Proof.
  unfold number_token, number_split. rewrite decimal_sign, point_digits. cbn.
  assert (D : digits_text (decimal (Z.abs z)) = true).
  { unfold digits_text. pose proof (decimal_nonnil (Z.abs z)). pose proof (decimal_digits (Z.abs z) ltac:(lia)). destruct (decimal (Z.abs z)); [congruence|assumption]. }
  unfold number_ok, number_text. cbn [n_sign n_int n_frac n_exp]. rewrite D. rewrite app_assoc, decimal_sign_text. cbn. rewrite chars_eqb_refl. destruct (z <? 0); reflexivity.
Qed.
Lemma no_unsigned t : existsb (Ascii.eqb ".") t = true -> unsigned_text t = None.
Proof.
  intros E. unfold unsigned_text. destruct t as [|c r]; [reflexivity|]. destruct (forallb is_digit (c :: r)) eqn:D; [|reflexivity]. exfalso. apply existsb_exists in E. destruct E as (x & I & E).
  apply Ascii.eqb_eq in E. subst x. rewrite forallb_forall in D. apply D in I. discriminate I.
Qed.
Lemma no_int t : existsb (Ascii.eqb ".") t = true -> int_text t = None.
Proof.
  intros E. unfold int_text. destruct t as [|c r]; [reflexivity|]. destruct (Ascii.eqb_spec c "-") as [->|N1]; [|destruct (Ascii.eqb_spec c "+") as [->|N2]].
  - rewrite no_unsigned; [reflexivity|exact E].
  - apply no_unsigned, E.
  - apply no_unsigned, E.
Qed.
Lemma has_point z : existsb (Ascii.eqb ".") (decimal z ++ txt ".0") = true.
Proof. rewrite existsb_app. apply orb_true_iff. right. reflexivity. Qed.
Lemma no_point z : existsb (Ascii.eqb ".") (decimal z) = false.
Proof. destruct (existsb (Ascii.eqb ".") (decimal z)) eqn:E; [|reflexivity]. apply no_int in E. rewrite int_decimal in E. discriminate. Qed.
#[local] Instance TextLaws : FloatLaws TextFloats.
Proof.
  refine {| f_finite := text_finite : @F TextFloats -> bool |}.
  - intros t H. unfold text_finite in H. apply andb_true_iff in H. destruct H as [H1 H2]. split; [exact H1|]. cbn [f_text f_read TextFloats]. rewrite H2. split; [reflexivity|]. apply no_int, H2.
  - intros z _. cbn [f_int f_read f_trunc f_text TextFloats]. split; [|split].
    + unfold text_finite. rewrite float_token, has_point. reflexivity.
    + rewrite no_point, int_decimal. reflexivity.
    + unfold before_point. rewrite decimal_sign. cbn [fst snd]. rewrite point_digits. cbn [fst]. rewrite decimal_sign_text. apply int_decimal.
Defined.

(** ** A database with most of what a DBC file can hold *)
Definition sorted_set (l : list Z) : list Z := nodup Z.eq_dec l.
Lemma sorted_set_ok : lists_set sorted_set.
Proof. intros l. split; [apply NoDup_nodup|intros x; apply nodup_In]. Qed.
Definition ex_signal (n : string) (start len : Z) : dsignal :=
  DSignal (txt n) start len false false None (DInt 1) (DInt 0) false None None None None None [] false None None None [].
Definition ex_long_node := "GatewayControlUnitWithAnUnusuallyLongName".
Definition ex_long_signal := "BrakePedalPositionPercentageFilteredValue".
Definition ex_defs : definitions := map (fun d => (d_name d, d))
  [Def (txt "GenMsgSendType") (Some (AStr (txt "Cyclic"))) (Some "BO_") (txt "ENUM") None None [txt "Cyclic"; txt "Event"];
   Def (txt "SPN") (Some (AInt 0)) (Some "SG_") (txt "INT") (Some (DInt 0)) (Some (DInt 524287)) [];
   Def (txt "VFrameFormat") (Some (AStr (txt "StandardCAN"))) (Some "BO_") (txt "ENUM") None None frame_formats;
   Def (txt "DBName") (Some (AStr [])) None (txt "STRING") None None [];
   Def (txt "Weight") (Some (AFloat (txt "1.5"))) (Some "SG_") (txt "FLOAT") (Some (DFloat (txt "-2.0"))) (Some (DFloat (txt "2.0"))) [];
   Def (txt "NodeLayer") None (Some "BU_") (txt "HEX") (Some (DInt 0)) (Some (DInt 15)) [];
   Def (txt "Owner") (Some (AStr (txt "nobody"))) (Some "EV_") (txt "STRING") None None []].
Definition ex_def (n : string) : definition := match cget ex_defs (txt n) with Some d => d | None => def_baudrate end.
Definition ex_rel_defs : definitions := map (fun d => (d_name d, d))
  [Def (txt "GenSigTimeoutTime") (Some (AInt 0)) (Some "BU_SG_REL_") (txt "INT") (Some (DInt 0)) (Some (DInt 65535)) [];
   Def (txt "Route") (Some (AStr [])) (Some "BU_BO_REL_") (txt "STRING") None None []].
Definition ex_rel_def (n : string) : definition := match cget ex_rel_defs (txt n) with Some d => d | None => def_baudrate end.
Definition ex_attr (n : string) (v : aval) : chars * attribute := (txt n, Attr v (ex_def n)).
Definition ex_message : dmessage :=
  DMessage 217056256 true (txt "Brake_Status") 8 [txt ex_long_node; txt "ECU2"] (Some (txt "Event")) (Some (AInt 100)) (Some (txt "state of the ""brakes"""))
    [DSignal (txt ex_long_signal) 7 12 true false (Some (DFloat (txt "12.5"))) (DFloat (txt "0.1")) (DInt (-40)) false None (Some (DInt (-40))) (Some (DFloat (txt "369.5")))
       (Some (txt "%")) (Some (txt "filtered")) [txt "ECU2"; txt ex_long_node] false None None (Some (AInt 521)) [ex_attr "SPN" (AInt 521); ex_attr "Weight" (AFloat (txt "0.5"))];
     DSignal (txt "Mode") 16 8 false false None (DInt 1) (DInt 0) false (Some [(0, txt "Off"); (1, txt "On")]) None None None None [] true None None (Some (AInt 0)) [];
     DSignal (txt "Temperature") 32 32 false true (Some (DInt 3)) (DInt 1) (DInt 0) true None None (Some (DInt 5)) None None [] false (Some [3; 1; 2; 9]) (Some (txt "Mode")) (Some (AInt 0)) [];
     DSignal (txt "Counter") 24 8 false false None (DInt 1) (DInt 0) false None (Some (DInt 0)) (Some (DInt 0)) None None [] false (Some [0]) (Some (txt "Mode")) (Some (AInt 0)) []]
    true false (Some [Group (txt "All") 1 [txt ex_long_signal; txt "Mode"]]) [ex_attr "GenMsgSendType" (AInt 1)].
Definition ex_fd : dmessage :=
  DMessage 291 false (txt "Bulk") 64 [] (Some (txt "Cyclic")) None None [DSignal (txt "Data") 0 64 false false None (DInt 1) (DInt 0) false None None None None None [] false None None (Some (AInt 0)) []]
    false true None [].
Definition ex_db : database :=
  Db (Some (txt "1.0")) [Node (txt ex_long_node) (Some (txt "central")) [ex_attr "NodeLayer" (AInt 3)]; Node (txt "ECU2") None []]
    [Bus (txt "Body") (Some 500000) (Some (txt "body bus"))] [ex_message; ex_fd] [ex_attr "DBName" (AStr (txt "Body"))] ex_defs
    [(txt "Speed", Envvar (txt "Speed") 1 (DInt 0) (DFloat (txt "300.0")) (txt "km/h") (DInt 0) 7 (txt "DUMMY_NODE_VECTOR0") (txt "Vector__XXX") None [ex_attr "Owner" (AStr (txt "driver"))])]
    [(txt "OnOff", [(0, txt "Off"); (1, txt "On")])]
    [(frame ex_message, [(txt ex_long_signal, [(txt "ECU2", [(txt "GenSigTimeoutTime", Attr (AInt 500) (ex_rel_def "GenSigTimeoutTime"))])])])]
    [(frame ex_message, [(txt "ECU2", [(txt "Route", Attr (AStr (txt "all")) (ex_rel_def "Route"))])])] ex_rel_defs.
Example C56_example_good : good ex_db = true.
Proof. vm_compute. reflexivity. Qed.
Example C56_example : exists text db', dump_string true ex_db = Ok text /\ load_string sorted_set text = Ok db' /\ same_database ex_db db' /\
  option_map n_name (hd_error (db_nodes db')) = Some (txt ex_long_node).
Proof.
  destruct (C56_round_trip true sorted_set ex_db sorted_set_ok C56_example_good) as (t & db' & D & L & S). exists t, db'. repeat (split; [assumption|]).
  destruct S as (_ & N & _). cbn [db_nodes ex_db] in N. inversion N as [|x y l l' (E & _) F]; subst. cbn [hd_error option_map]. rewrite E. reflexivity.
Qed.

(** ** Databases that are not read back.  Each of them breaks one condition of [good]. *)
Definition small_db (m : dmessage) (defs : list definition) : database :=
  Db None [Node (txt "ECU") None []] [] [m] [] (map (fun d => (d_name d, d)) defs) [] [] [] [] [].
Definition small_message (sigs : list dsignal) : dmessage := DMessage 5 false (txt "M") 8 [txt "ECU"] None None None sigs false false None [].
Definition through (shorten : bool) (db : database) : result database := bind (dump_string shorten db) (load_string sorted_set).
Definition first_message (r : result database) : option dmessage := match r with Ok db => hd_error (db_messages db) | Err _ => None end.
Definition first_signal (r : result database) : option dsignal := match first_message r with Some m => hd_error (m_signals m) | None => None end.
Definition limited (lo hi : option num) : dsignal := DSignal (txt "S") 0 8 false false None (DInt 1) (DInt 0) false None lo hi None None [] false None None None [].

Ltac vm := match goal with |- _ = ?r => vm_cast_no_check (eq_refl r) end.
(** Two limits that are 0 are lost, and a missing limit beside another one becomes 0. *)
Theorem C48_limits_refuted :
  option_map (fun s => (s_min s, s_max s)) (first_signal (through true (small_db (small_message [limited (Some (DInt 0)) (Some (DInt 0))]) []))) = Some (None, None) /\
  option_map (fun s => (s_min s, s_max s)) (first_signal (through true (small_db (small_message [limited None (Some (DInt 5))]) []))) = Some (Some (DInt 0), Some (DInt 5)).
Proof. split; vm. Qed.
(** A cycle time of 0 is lost. *)
Theorem C48_cycle_time_refuted : exists m, m_cycle_time m = Some (AInt 0) /\ option_map m_cycle_time (first_message (through true (small_db m []))) = Some None.
Proof. exists (DMessage 5 false (txt "M") 8 [] None (Some (AInt 0)) None [] false false None []). split; vm. Qed.
(** The protocol is lost if the file has no VFrameFormat definition. *)
Theorem C48_protocol_refuted : exists m, m_j1939 m = true /\ option_map m_j1939 (first_message (through true (small_db m []))) = Some false.
Proof. exists (DMessage 217056256 true (txt "M") 8 [] None None None [] true false None []). split; vm. Qed.
(** A VFrameFormat attribute of a message with the default format is written as it is, whatever the frame format of the message. *)
Definition format_def (default : string) : definition := Def (txt "VFrameFormat") (Some (AStr (txt default))) (Some "BO_") (txt "ENUM") None None frame_formats.
Theorem C48_frame_format_refuted : exists m, m_fd m = false /\ option_map m_fd (first_message (through true (small_db m [format_def "StandardCAN"]))) = Some true.
Proof.
  exists (DMessage 5 false (txt "M") 8 [] None None None [] false false None [(txt "VFrameFormat", Attr (AInt 14) (format_def "StandardCAN"))]).
  split; vm.
Qed.
(** The send type of a message is read from its attribute: without the attribute it is lost. *)
Theorem C48_send_type_refuted : exists m, m_send_type m = Some (txt "Event") /\ option_map m_send_type (first_message (through true (small_db m []))) = Some None.
Proof. exists (DMessage 5 false (txt "M") 8 [] (Some (txt "Event")) None None [] false false None []). split; vm. Qed.

Definition fails {A} (r : result A) : bool := match r with Ok _ => false | Err _ => true end.
Definition written_not_read (db : database) : bool := negb (fails (dump_string true db)) && fails (through true db).
(** A half precision float signal cannot be written. *)
Theorem C56_half_refuted : exists s, s_float s = true /\ s_length s = 16 /\ fails (dump_string true (small_db (small_message [s]) [])) = true.
Proof. exists (DSignal (txt "S") 0 16 false false None (DInt 1) (DInt 0) true None None None None None [] false None None None []). repeat split; vm. Qed.
(** A name that is a keyword of DBC files is written but not read. *)
Theorem C56_keyword_refuted : exists m, m_name m = txt "BO_" /\ written_not_read (small_db m []) = true.
Proof. exists (DMessage 5 false (txt "BO_") 8 [] None None None [] false false None []). split; vm. Qed.
(** The message VECTOR__INDEPENDENT_SIG_MSG is not written. *)
Definition number_of_messages (r : result database) : option nat := match r with Ok db => Some (List.length (db_messages db)) | Err _ => None end.
Theorem C56_independent_refuted : exists m, m_name m = txt "VECTOR__INDEPENDENT_SIG_MSG" /\ number_of_messages (through true (small_db m [])) = Some O.
Proof. exists (DMessage 5 false (txt "VECTOR__INDEPENDENT_SIG_MSG") 8 [] None None None [] false false None []). split; vm. Qed.
(** The name of the bus is lost if it is not also the attribute DBName. *)
Definition number_of_buses (r : result database) : option nat := match r with Ok db => Some (List.length (db_buses db)) | Err _ => None end.
Theorem C56_bus_refuted : number_of_buses (through true (Db None [] [Bus (txt "Body") None None] [] [] [] [] [] [] [] [])) = Some O.
Proof. vm. Qed.
(** A VFrameFormat definition that does not know the format of a message and has no default: the file is written but not read. *)
Theorem C56_unknown_format_refuted : exists d, d_choices d = [txt "ExtendedCAN"] /\ d_default d = None /\ written_not_read (small_db (small_message []) [d]) = true.
Proof. exists (Def (txt "VFrameFormat") None (Some "BO_") (txt "ENUM") None None [txt "ExtendedCAN"]). repeat split; vm. Qed.
(** A multiplexer with a long name: the multiplexed signals read from the file name a multiplexer that the message does not have. *)
Definition long_mux := "MultiplexerSignalWithAnUnusuallyLongName".
Definition mux_message : dmessage := small_message
  [DSignal (txt long_mux) 0 8 false false None (DInt 1) (DInt 0) false None None None None None [] true None None None [];
   DSignal (txt "S") 8 8 false false None (DInt 1) (DInt 0) false None None None None None [] false (Some [1]) (Some (txt long_mux)) None []].
Definition orphans (m : dmessage) : list chars :=
  map s_name (filter (fun s => match s_mux_signal s with Some n => negb (chars_in n (map s_name (m_signals m))) | None => false end) (m_signals m)).
Theorem C56_long_multiplexer_refuted : orphans mux_message = [] /\ option_map orphans (first_message (through true (small_db mux_message []))) = Some [txt "S"].
Proof. split; vm. Qed.
(** A signal group that names a signal the message does not have: shortening the names fails. *)
Theorem C56_group_refuted : exists m, m_groups m = Some [Group (txt "G") 1 [txt "Gone"]] /\ fails (dump_string true (small_db m [])) = true /\ fails (dump_string false (small_db m [])) = false.
Proof.
  exists (DMessage 5 false (txt "M") 8 [] None None None [limited None None] false false (Some [Group (txt "G") 1 [txt "Gone"]]) []).
  repeat split; vm.
Qed.
