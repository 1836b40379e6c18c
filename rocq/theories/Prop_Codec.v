(** Prop_Codec: properties C01 to C15 of Message.encode, Message.decode and the constructor.

    [strict_message m] (CodecSpec): [m] was built by the constructor with strict=True and the
    default sort order, its signal names are distinct, no start bit is negative, and all conversions
    come from the factory. *)
From Coq Require Import Sorting.Permutation Floats.SpecFloat.
From Verif Require Import Base PyNum Conversion Signal Bitstruct Formats Message LayoutSpec CodecSpec
     DictLemmas BitsLemmas FloatBits GenItems NodeProofs CheckSignal TreeProofs MsgProofs
     CheckComplete Construct CodecThms RoundTrip MsgThms Strict Examples.

(** The signals selected by a dictionary of values. *)
Definition selected (m : message) (d : list (string * value)) (s : signal) : Prop :=
  active (m_signals m) (selectors (m_signals m) d) s.

Example ex_selected k : In k ["Mux"; "Sub"; "E"; "B"; "State"; "Speed"; "F"]%string ->
  exists s, selected ex_msg ex_data s /\ s_name s = k.
Proof.
  destruct (strict_message_ok _ ex_strict) as [OK BC].
  assert (E : map s_name (sel_list (mux_of (m_signals ex_msg) ex_data) (m_codec ex_msg))
              = ["Mux"; "Sub"; "E"; "B"; "State"; "Speed"; "F"]%string) by (vm_compute; reflexivity).
  rewrite <- E. intros H. destruct (proj1 (in_map_iff _ _ _) H) as (s & <- & Hs).
  exists s. split; [|reflexivity]. unfold selected. exact (proj1 (sel_d ex_msg OK BC ex_data s) Hs).
Qed.

(** ** C01 *)
Theorem C01_encode_bit_positions m d scaling padding strict bytes :
  strict_message m -> encode m d scaling padding strict = Ok bytes ->
  forall s, selected m d s ->
    exists v raw x, sget d (s_name s) = Some v /\ raw_value s scaling v raw /\ raw_bits s raw x /\
      forall k, 0 <= k < s_length s -> payload_bit bytes (bit_pos s k) = Z.testbit x k.
Proof.
  intros SM H. destruct (strict_message_ok m SM) as [OK BC].
  exact (ff_bits _ _ _ _ _ (encode_frame m OK BC d scaling padding strict bytes H)).
Qed.
Example C01_hypotheses : strict_message ex_msg /\ encode ex_msg ex_data false true true = Ok ex_bytes /\
  exists s, selected ex_msg ex_data s /\ s_name s = "E"%string.
Proof. split; [exact ex_strict|]. split; [apply ex_encode|]. apply ex_selected. cbn. tauto. Qed.

(** ** C02 *)
Theorem C02_frame_length_and_unused_bits m d scaling padding strict bytes :
  strict_message m -> encode m d scaling padding strict = Ok bytes ->
  zlen bytes = m_length m /\ bytes_ok bytes /\
  forall b, 0 <= b < 8 * m_length m -> (forall s, selected m d s -> ~ occupies s b) ->
    payload_bit bytes b = if padding then Z.testbit (m_unused m) (b mod 8) else false.
Proof.
  intros SM H. destruct (strict_message_ok m SM) as [OK BC].
  destruct (encode_frame m OK BC d scaling padding strict bytes H) as [F1 F2 F3 F4 F5]. auto.
Qed.
Example C02_hypotheses : strict_message ex_msg /\ encode ex_msg ex_data false true true = Ok ex_bytes /\ m_unused ex_msg = 255.
Proof. split; [exact ex_strict|]. split; [apply ex_encode|vm_compute; reflexivity]. Qed.

Theorem C02_padding_keeps_signal_bits m d scaling strict bytes bytes' :
  strict_message m ->
  encode m d scaling false strict = Ok bytes -> encode m d scaling true strict = Ok bytes' ->
  forall s b, selected m d s -> occupies s b -> payload_bit bytes b = payload_bit bytes' b.
Proof.
  intros SM H H' s b A (k & Hk & <-).
  destruct (C01_encode_bit_positions _ _ _ _ _ _ SM H s A) as (v & raw & x & V1 & V2 & V3 & V4).
  destruct (C01_encode_bit_positions _ _ _ _ _ _ SM H' s A) as (v' & raw' & x' & W1 & W2 & W3 & W4).
  assert (v' = v) by congruence. subst v'.
  assert (raw' = raw) by (eapply raw_value_fun; eauto). subst raw'.
  assert (x' = x) by (eapply raw_bits_fun; eauto). subst x'.
  rewrite V4, W4 by assumption. reflexivity.
Qed.
Example C02_padding_hypotheses : exists b b', encode ex_msg ex_data false false true = Ok b /\
  encode ex_msg ex_data false true true = Ok b' /\ b <> b'.
Proof. do 2 eexists. split; [vm_compute; reflexivity|]. split; [vm_compute; reflexivity|]. discriminate. Qed.

(** ** C03 *)
Theorem C03_decode_positions m data allow_truncated allow_excess :
  strict_message m -> bytes_ok data -> zlen data = m_length m ->
  (forall out, decode m data false false allow_truncated allow_excess = Ok out ->
     NoDup (map fst out) /\
     forall k v, sget out k = Some v <->
       exists s, active (m_signals m) (payload_selectors (m_signals m) data) s /\ s_name s = k /\
                 v = VNum (read_raw data s)) /\
  ((exists out, decode m data false false allow_truncated allow_excess = Ok out) <->
   forall s, active (m_signals m) (payload_selectors (m_signals m) data) s ->
     selector_known (m_signals m) (payload_selectors (m_signals m) data) s).
Proof. intros SM. destruct (strict_message_ok m SM) as [OK BC]. now apply decode_raw. Qed.
Example C03_hypotheses : strict_message ex_msg /\ bytes_ok ex_bytes /\ zlen ex_bytes = m_length ex_msg /\
  exists out, decode ex_msg ex_bytes false false false false = Ok out.
Proof.
  split; [exact ex_strict|]. split; [vm_compute; repeat constructor; discriminate|]. split; [vm_compute; reflexivity|].
  eexists. vm_compute. reflexivity.
Qed.

Theorem C03_decode_never_fails m data allow_truncated allow_excess :
  strict_message m -> bytes_ok data -> zlen data = m_length m ->
  (forall s, In s (m_signals m) -> s_is_mux s = false) ->
  exists out, decode m data false false allow_truncated allow_excess = Ok out.
Proof.
  intros SM BO HL NM. apply (C03_decode_positions m data allow_truncated allow_excess SM BO HL).
  intros s A EM. apply active_in in A. rewrite (NM s A) in EM. discriminate.
Qed.
Example C03_flat_hypotheses : strict_message flat_msg /\ bytes_ok [200; 17; 255] /\
  zlen [200; 17; 255] = m_length flat_msg /\ (forall s, In s (m_signals flat_msg) -> s_is_mux s = false).
Proof.
  split; [exact flat_strict|]. split; [repeat constructor; vm_compute; discriminate|]. split; [vm_compute; reflexivity|].
  intros s H. sig_cases H; reflexivity.
Qed.

(** ** C04 *)
(** Multiplexer values are given as integers or texts. *)
Definition plain_selectors (m : message) (d : list (string * value)) : Prop :=
  forall s v, selected m d s -> s_is_mux s = true -> sget d (s_name s) = Some v ->
    (exists z, v = VNum (NInt z)) \/ (exists l, v = VStr l).

(** Float signals get a value that has an encoding of the signal's width. *)
Definition storable_floats (m : message) (d : list (string * value)) : Prop :=
  forall s v, selected m d s -> conv_is_float (s_conv s) = true -> sget d (s_name s) = Some v ->
    exists y, 0 <= y < 2 ^ s_length s /\ v = VNum (NFlt (bits_to_float (s_length s) y)).

Theorem C04_raw_round_trip m d padding strict bytes :
  strict_message m -> plain_selectors m d -> storable_floats m d ->
  encode m d false padding strict = Ok bytes ->
  exists out, decode m bytes false false false false = Ok out /\ NoDup (map fst out) /\
    forall k v', sget out k = Some v' <->
      exists s v raw, selected m d s /\ s_name s = k /\ sget d k = Some v /\
                      raw_value s false v raw /\ v' = VNum raw.
Proof.
  intros SM PS SF H. destruct (strict_message_ok m SM) as [OK BC].
  destruct (roundtrip m d false padding strict bytes false false OK BC) as (out & H1 & H2 & H3); auto; [discriminate| |].
  - intros s v raw A HV HR. split.
    + intros EF. destruct (SF s v A EF HV) as (y & Hy & ->). unfold raw_value in HR. rewrite EF in HR. eauto.
    + exists (VNum raw). split; [now apply raw_shown|]. intros EM.
      destruct (PS s v A EM HV) as [[z ->]|[l ->]]; unfold raw_value in HR.
      * destruct (conv_is_float (s_conv s)) eqn:EF; [now subst raw|].
        destruct HR as (z' & E & ->). apply Ok_inj in E. now subst z'.
      * destruct HR as (ch & z & E1 & E2 & ->). cbn. now rewrite E1.
  - exists out. split; [assumption|]. split; [assumption|]. intros k v'. rewrite H3. split.
    + intros (s & v & raw & A & E & G & R & V). exists s, v, raw. repeat (split; [assumption|]). now apply raw_shown in V.
    + intros (s & v & raw & A & E & G & R & V). exists s, v, raw. repeat (split; [assumption|]). now apply raw_shown.
Qed.
Example C04_hypotheses : strict_message ex_msg /\ plain_selectors ex_msg ex_data /\ storable_floats ex_msg ex_data /\
  encode ex_msg ex_data false true true = Ok ex_bytes.
Proof.
  split; [exact ex_strict|]. split; [|split; [|apply ex_encode]].
  - intros s v A. apply active_in in A. sig_cases A; intros EM G; try discriminate; vm_compute in G; injection G as <-; eauto.
  - intros s v A. apply active_in in A. sig_cases A; intros EM G; try discriminate; vm_compute in G; injection G as <-.
    exists 15872. split; [vm_compute; split; congruence|vm_compute; reflexivity].
Qed.

(** ** C05 *)
Lemma occ_sel_dec m mv b : msg_ok m ->
  (exists s, active (m_signals m) mv s /\ occupies s b) \/ ~ (exists s, active (m_signals m) mv s /\ occupies s b).
Proof.
  intros OK. assert (ACT := sel_list_active (m_signals m) (m_length m) mv (m_codec m) (mo_names _ OK) (mo_wfc _ OK)).
  destruct (existsb (fun s => occb s b) (sel_list mv (m_codec m))) eqn:EX.
  - left. apply existsb_exists in EX. destruct EX as (s & Hs & O). apply occb_iff in O. apply ACT in Hs. eauto.
  - right. intros (s & A & O). apply ACT in A. apply occb_iff in O.
    assert (existsb (fun s => occb s b) (sel_list mv (m_codec m)) = true); [|congruence].
    apply existsb_exists. eauto.
Qed.

Theorem C05_payload_round_trip m data out allow_excess (padding : bool) :
  strict_message m -> bytes_ok data -> (padding = true -> 0 <= m_unused m < 256) ->
  decode m data false false false allow_excess = Ok out ->
  (forall k, sget out k <> Some (VNum (NFlt S754_nan))) ->
  exists bytes, encode m out false padding false = Ok bytes /\
    (forall s b, selected m out s -> occupies s b -> payload_bit bytes b = payload_bit data b) /\
    (zlen data = m_length m ->
     (forall b, 0 <= b < 8 * m_length m -> (forall s, selected m out s -> ~ occupies s b) ->
        payload_bit data b = if padding then Z.testbit (m_unused m) (b mod 8) else false) ->
     bytes = data).
Proof.
  intros SM BO HP HD HN. destruct (strict_message_ok m SM) as [OK BC].
  destruct (payload_roundtrip m data out allow_excess padding OK BC BO HP HD HN) as (bytes & HE & F & HB).
  exists bytes. split; [assumption|]. split; [exact HB|]. intros HL HR.
  destruct F as [F1 F2 F3 F4 F5].
  apply payload_ext; auto; [unfold zlen in *; lia|].
  intros b Hb. rewrite F1 in Hb.
  destruct (occ_sel_dec m (selectors (m_signals m) out) b OK) as [(s & A & Ob)|NO]; [now apply (HB s b)|].
  rewrite F5, HR; auto; intros s A Ob; apply NO; exists s; auto.
Qed.
Example C05_hypotheses : strict_message ex_msg /\ bytes_ok ex_bytes /\ 0 <= m_unused ex_msg < 256 /\
  exists out, decode ex_msg ex_bytes false false false false = Ok out /\
              forall k, sget out k <> Some (VNum (NFlt S754_nan)).
Proof.
  split; [exact ex_strict|]. split; [vm_compute; repeat constructor; discriminate|].
  split; [vm_compute; split; congruence|]. eexists. split; [vm_compute; reflexivity|].
  intros k H. apply (get_in _ sspec) in H. cbn in H. intuition discriminate.
Qed.

(** ** C06 *)
Theorem C06_frame_bits_independent m d d' k scaling padding strict strict' b1 b2 :
  strict_message m ->
  (forall s, In s (m_signals m) -> s_name s = k -> s_is_mux s = false) ->
  (forall k', k' <> k -> sget d k' = sget d' k') ->
  encode m d scaling padding strict = Ok b1 -> encode m d' scaling padding strict' = Ok b2 ->
  (forall s, selected m d s <-> selected m d' s) /\
  (forall b, 0 <= b < 8 * m_length m ->
     (forall s, selected m d s -> s_name s = k -> ~ occupies s b) -> payload_bit b1 b = payload_bit b2 b) /\
  (forall s, selected m d s -> s_name s <> k -> read_raw b1 s = read_raw b2 s).
Proof.
  intros SM NM HD H1 H2. destruct (strict_message_ok m SM) as [OK BC].
  destruct (encode_independent m d d' k scaling padding strict strict' b1 b2 OK BC NM HD H1 H2) as [E1 E2].
  split; [exact E1|]. split; [exact E2|]. intros s A N.
  exact (read_independent m d d' k scaling padding strict strict' b1 b2 s OK BC NM HD H1 H2 A N).
Qed.
Example C06_hypotheses :
  (forall s, In s (m_signals ex_msg) -> s_name s = "B"%string -> s_is_mux s = false) /\
  (forall k', k' <> "B"%string -> sget ex_data k' = sget (sset ex_data "B"%string (VNum (NInt 100))) k') /\
  exists b, encode ex_msg (sset ex_data "B"%string (VNum (NInt 100))) false true false = Ok b /\ b <> ex_bytes.
Proof.
  split; [intros s H; sig_cases H; intros E; try discriminate E; reflexivity|]. split.
  - intros k' N. rewrite (get_set _ sspec). destruct (String.eqb_spec "B"%string k'); [congruence|reflexivity].
  - eexists. split; [vm_compute; reflexivity|]. intros E. vm_compute in E. discriminate E.
Qed.

Theorem C06_decoded_values_independent m d d' k padding strict strict' b1 b2 :
  strict_message m ->
  (forall s, In s (m_signals m) -> s_name s = k -> s_is_mux s = false) ->
  (forall k', k' <> k -> sget d k' = sget d' k') ->
  plain_selectors m d -> storable_floats m d -> storable_floats m d' ->
  encode m d false padding strict = Ok b1 -> encode m d' false padding strict' = Ok b2 ->
  exists o1 o2, decode m b1 false false false false = Ok o1 /\ decode m b2 false false false false = Ok o2 /\
    forall k', k' <> k -> sget o1 k' = sget o2 k'.
Proof.
  intros SM NM HD PS SF SF' H1 H2.
  destruct (C06_frame_bits_independent m d d' k false padding strict strict' b1 b2 SM NM HD H1 H2) as (ACT & _ & _).
  assert (PS' : plain_selectors m d').
  { intros s v A EM G. apply ACT in A. apply (PS s v A EM). rewrite HD; [assumption|].
    intros E. rewrite (NM s) in EM; [discriminate| |assumption]. now apply active_in in A. }
  destruct (C04_raw_round_trip m d padding strict b1 SM PS SF H1) as (o1 & D1 & _ & V1).
  destruct (C04_raw_round_trip m d' padding strict' b2 SM PS' SF' H2) as (o2 & D2 & _ & V2).
  exists o1, o2. split; [assumption|]. split; [assumption|]. intros k' N.
  assert (EQ : forall v, sget o1 k' = Some v <-> sget o2 k' = Some v).
  { intros v. rewrite V1, V2. split; intros (s & w & raw & A & E & G & R);
      (exists s, w, raw; split; [now apply ACT|split; [assumption|split; [|assumption]]]).
    - now rewrite <- HD. 
    - now rewrite HD. }
  destruct (sget o1 k') as [v|] eqn:E1.
  - symmetry. now apply EQ.
  - destruct (sget o2 k') as [v|] eqn:E2; [|reflexivity]. now apply EQ.
Qed.

(** ** C07 *)
(** Every selected signal has a value whose raw form fits the signal. *)
Definition encodable (m : message) (d : list (string * value)) (scaling : bool) : Prop :=
  forall s, selected m d s ->
    selector_known (m_signals m) (selectors (m_signals m) d) s /\
    exists v raw x, sget d (s_name s) = Some v /\ raw_value s scaling v raw /\ raw_bits s raw x.

Theorem C07_encode_iff_encodable m d scaling (padding : bool) :
  strict_message m -> (padding = true -> 0 <= m_unused m < 256) ->
  (exists bytes, encode m d scaling padding false = Ok bytes) <-> encodable m d scaling.
Proof.
  intros SM HP. destruct (strict_message_ok m SM) as [OK BC]. split.
  - intros [bytes H] s A. destruct (encode_frame m OK BC _ _ _ _ _ H) as [_ _ FK FB _].
    split; [now apply FK|]. destruct (FB s A) as (v & raw & x & V1 & V2 & V3 & _). eauto 8.
  - intros HE. apply encode_complete; auto; intros s A; apply (HE s A).
Qed.
Example C07_hypotheses : strict_message ex_msg /\ 0 <= m_unused ex_msg < 256 /\
  encodable ex_msg ex_data false /\ ~ encodable ex_msg (sset ex_data "B"%string (VNum (NInt 128))) false.
Proof.
  assert (HU : 0 <= m_unused ex_msg < 256) by (vm_compute; split; congruence).
  split; [exact ex_strict|]. split; [assumption|]. split.
  - apply (C07_encode_iff_encodable ex_msg ex_data false true ex_strict); [auto|]. eexists. vm_compute. reflexivity.
  - intros H. apply (C07_encode_iff_encodable ex_msg _ false true ex_strict) in H; [|auto]. destruct H as [b H].
    vm_compute in H. discriminate.
Qed.

Theorem C07_no_silent_truncation m d padding strict bytes s z :
  strict_message m -> encode m d false padding strict = Ok bytes ->
  selected m d s -> conv_is_float (s_conv s) = false -> sget d (s_name s) = Some (VNum (NInt z)) ->
  int_fits s z /\ read_int bytes s = z.
Proof.
  intros SM H A EF HV. destruct (strict_message_ok m SM) as [OK BC].
  destruct (C01_encode_bit_positions _ _ _ _ _ _ SM H s A) as (v & raw & x & V1 & V2 & V3 & V4).
  assert (v = VNum (NInt z)) by congruence. subst v. unfold raw_value in V2. rewrite EF in V2.
  destruct V2 as (z' & E & ->). apply Ok_inj in E. subst z'. unfold raw_bits in V3. rewrite EF in V3.
  destruct V3 as [V3 ->]. split; [assumption|]. apply read_int_bits; auto. apply (mo_pos _ OK). now apply active_in in A.
Qed.

(** ** C08 *)
Theorem C08_strict_check_iff frame_id extended name length unused signals :
  0 <= length -> names_unique signals -> (forall s, In s signals -> 0 <= s_start s) ->
  (exists m, mk_message frame_id extended name length unused signals true SortDefault = Ok m) <->
  (frame_id_ok extended frame_id /\ (forall s, In s signals -> 0 < s_length s) /\
   (forall mv s, active signals mv s -> conv_is_float (s_conv s) = true -> float_size_ok (s_length s) = true) /\
   layout_ok signals length).
Proof. exact (mk_message_iff frame_id extended name length unused signals). Qed.
Example C08_hypotheses : 0 <= 8 /\ names_unique ex_sigs /\ (forall s, In s ex_sigs -> 0 <= s_start s) /\
  (exists m, mk_message 291 false "Ex" 8 255 ex_sigs true SortDefault = Ok m) /\
  (mk_message 291 false "Ex" 8 255 (sig "G" 3 3 true false plain_conv :: ex_sigs) true SortDefault = Err CantoolsError)%string.
Proof.
  split; [lia|]. split; [apply names_nodup; vm_compute; reflexivity|]. split.
  - intros s H. repeat (destruct H as [<-|H]; [cbn; lia|]). contradiction.
  - split; [eexists; vm_compute; reflexivity|vm_compute; reflexivity].
Qed.

(** ** C09 *)
Theorem C09_constructor_checks frame_id extended name length unused signals strict sort m :
  mk_message frame_id extended name length unused signals strict sort = Ok m ->
  frame_id_ok extended frame_id /\ m_frame_id m = frame_id /\
  forall s, In s (m_signals m) -> 0 < s_length s.
Proof.
  intros H. destruct (mk_message_basic _ _ _ _ _ _ _ _ _ H) as (H1 & H2 & H3 & H4 & H5 & H6 & H7 & H8 & H9).
  rewrite H2. auto.
Qed.
Example C09_hypotheses :
  (exists m, mk_message 2047 false "Ex" 8 255 ex_sigs false SortDefault = Ok m) /\
  mk_message 2048 false "Ex" 8 255 ex_sigs false SortDefault = Err CantoolsError /\
  mk_message 0 false "Ex" 8 255 [sig "Z" 0 0 false false plain_conv] false SortDefault = Err CantoolsError.
Proof. split; [eexists; vm_compute; reflexivity|split; vm_compute; reflexivity]. Qed.

(** The claim that start bits are checked to lie inside the frame is false: a strict message with a
    start bit of -1 is accepted. *)
Theorem C09_start_bit_inside_frame_refuted :
  exists signals m, mk_message 1 false "M" 1 0 signals true SortDefault = Ok m /\
    exists s, In s (m_signals m) /\ ~ (0 <= s_start s < 8 * m_length m).
Proof.
  exists [sig "A" (-1) 1 false false plain_conv]. eexists. split; [vm_compute; reflexivity|].
  exists (sig "A" (-1) 1 false false plain_conv). split; [now left|]. cbn. lia.
Qed.

(** Negative frame ids pass the bit length check. *)
Theorem C09_frame_id_nonnegative_refuted :
  exists m, mk_message (-2047) false "M" 8 255 ex_sigs true SortDefault = Ok m /\ m_frame_id m < 0.
Proof. eexists. split; [vm_compute; reflexivity|]. cbn. lia. Qed.

(** ** C10 *)
Theorem C10_encode_uses_known_selectors m d scaling padding strict bytes :
  strict_message m -> encode m d scaling padding strict = Ok bytes ->
  forall s, selected m d s -> selector_known (m_signals m) (selectors (m_signals m) d) s.
Proof.
  intros SM H. destruct (strict_message_ok m SM) as [OK BC].
  exact (ff_known _ _ _ _ _ (encode_frame m OK BC d scaling padding strict bytes H)).
Qed.

(** Values of signals that are not selected have no influence. *)
Theorem C10_unselected_values_irrelevant m d d' scaling (padding : bool) bytes :
  strict_message m -> (padding = true -> 0 <= m_unused m < 256) ->
  (forall s, selected m d s -> sget d (s_name s) = sget d' (s_name s)) ->
  encode m d scaling padding false = Ok bytes -> encode m d' scaling padding false = Ok bytes.
Proof.
  intros SM HP HD H. destruct (strict_message_ok m SM) as [OK BC].
  assert (SEL : forall t, selected m d t -> selectors (m_signals m) d (s_name t) = selectors (m_signals m) d' (s_name t)).
  { intros t A. unfold selectors. now rewrite (HD t A). }
  assert (ACT : forall s, selected m d s <-> selected m d' s) by (intros s; now apply active_ext2).
  assert (F := encode_frame m OK BC _ _ _ _ _ H). destruct F as [F1 F2 F3 F4 F5].
  assert (F' : frame_for m d' scaling padding bytes).
  { split; auto.
    - intros s A. apply ACT in A as A'. intros EM K. destruct (F3 s A' EM K) as (v & V1 & V2).
      exists v. split; [|assumption]. now rewrite <- SEL.
    - intros s A. apply ACT in A as A'. destruct (F4 s A') as (v & raw & x & V1 & V2). exists v, raw, x.
      split; [|assumption]. now rewrite <- HD.
    - intros b Hb HN. apply F5; [assumption|]. intros s A. apply HN. now apply ACT. }
  destruct (encode_complete m OK BC d' scaling padding HP) as [b' Hb'].
  - apply F'.
  - intros s A. destruct (ff_bits _ _ _ _ _ F' s A) as (v & raw & x & V1 & V2 & V3 & _). eauto 8.
  - rewrite Hb'. f_equal. eapply frame_for_unique; eauto. eapply encode_frame; eauto.
Qed.
Example C10_irrelevant_hypotheses :
  (forall s, selected ex_msg ex_data s -> sget ex_data (s_name s) = sget (sset ex_data "D"%string (VNum (NInt 9999))) (s_name s)) /\
  sget ex_data "D"%string = None.
Proof.
  split; [|reflexivity]. intros s A. destruct (strict_message_ok _ ex_strict) as [OK BC].
  apply (proj2 (sel_d ex_msg OK BC ex_data s)) in A. sig_cases A; vm_compute; reflexivity.
Qed.

Theorem C10_encode_unknown_id m d scaling padding :
  strict_message m ->
  (forall s, selected m d s -> exists v raw x, sget d (s_name s) = Some v /\ raw_value s scaling v raw /\ raw_bits s raw x) ->
  (forall s, selected m d s -> s_is_mux s = true -> selectors (m_signals m) d (s_name s) <> None) ->
  (exists s, selected m d s /\ ~ selector_known (m_signals m) (selectors (m_signals m) d) s) ->
  encode m d scaling padding false = Err EncodeError.
Proof. intros SM. destruct (strict_message_ok m SM) as [OK BC]. now apply encode_bad_selector. Qed.
Example C10_unknown_hypotheses :
  (forall s, selected ex_msg ex_bad_data s -> exists v raw x, sget ex_bad_data (s_name s) = Some v /\ raw_value s false v raw /\ raw_bits s raw x) /\
  (forall s, selected ex_msg ex_bad_data s -> s_is_mux s = true -> selectors (m_signals ex_msg) ex_bad_data (s_name s) <> None) /\
  (exists s, selected ex_msg ex_bad_data s /\ ~ selector_known (m_signals ex_msg) (selectors (m_signals ex_msg) ex_bad_data) s).
Proof.
  destruct (strict_message_ok _ ex_strict) as [OK BC]. split; [|split].
  - intros s A. apply (proj2 (sel_d ex_msg OK BC ex_bad_data s)) in A. sig_cases A; do 3 eexists; (split; [vm_compute; reflexivity|]).
    + split; [exists 9; split; reflexivity|]. vm_compute. repeat split; congruence.
    + split; [exists 0; split; reflexivity|]. vm_compute. repeat split; congruence.
    + split; [exists 0; split; reflexivity|]. vm_compute. repeat split; congruence.
    + split; [reflexivity|]. vm_compute. reflexivity.
  - intros s A. apply (proj2 (sel_d ex_msg OK BC ex_bad_data s)) in A. sig_cases A; intros E; vm_compute; discriminate.
  - exists (hd (sig "" 0 0 false false plain_conv) ex_sigs). split.
    + apply (proj1 (sel_d ex_msg OK BC ex_bad_data _)). vm_compute. now left.
    + intros H. destruct H as (v & V1 & V2); [reflexivity| |].
      * exists 2. left. exists (muxed "C" 35 9 true false plain_conv [2] "Mux"), [2]. vm_compute. repeat split; auto 20.
      * vm_compute in V1. injection V1 as <-. destruct V2 as [(c & ids & Hc & E1 & E2 & HI)|(ch & E & _)]; [|discriminate].
        sig_cases Hc; try discriminate E1; injection E2 as <-; cbn in HI; intuition discriminate.
Qed.

Theorem C10_decode_unknown_id m data allow_truncated allow_excess :
  strict_message m -> bytes_ok data -> zlen data = m_length m ->
  (forall s, In s (m_signals m) -> s_is_mux s = true -> conv_is_float (s_conv s) = false) ->
  (exists s, active (m_signals m) (payload_selectors (m_signals m) data) s /\
             ~ selector_known (m_signals m) (payload_selectors (m_signals m) data) s) ->
  decode m data false false allow_truncated allow_excess = Err DecodeError.
Proof.
  intros SM BO HL NF (s & A & NK). destruct (strict_message_ok m SM) as [OK BC].
  destruct (decode m data false false allow_truncated allow_excess) as [out|e] eqn:E.
  - exfalso. apply NK. destruct (C03_decode_positions m data allow_truncated allow_excess SM BO HL) as [_ [H _]]. apply H; eauto.
  - f_equal. eapply decode_raw_err; eauto.
Qed.
Example C10_decode_hypotheses : bytes_ok ex_bad_payload /\ zlen ex_bad_payload = m_length ex_msg /\
  (forall s, In s (m_signals ex_msg) -> s_is_mux s = true -> conv_is_float (s_conv s) = false) /\
  decode ex_msg ex_bad_payload false false false false = Err DecodeError.
Proof.
  split; [repeat constructor; discriminate|]. split; [vm_compute; reflexivity|]. split; [|vm_compute; reflexivity].
  intros s H. sig_cases H; intros E; try discriminate E; reflexivity.
Qed.

(** ** C11 *)
Theorem C11_gather_iff m d :
  strict_message m ->
  (exists out, gather_signals m d = Ok out) <->
  (forall s, selected m d s ->
     selector_known (m_signals m) (selectors (m_signals m) d) s /\ exists v, sget d (s_name s) = Some v).
Proof.
  intros SM. destruct (strict_message_ok m SM) as [OK BC]. split.
  - intros [out H] s A. destruct (gather_spec m d out OK BC H) as (G1 & _ & _ & G4). split; [now apply G1|now apply G4].
  - intros H. apply gather_complete; auto; intros s A; apply (H s A).
Qed.

Theorem C11_gather_exact m d out :
  strict_message m -> gather_signals m d = Ok out ->
  NoDup (map fst out) /\
  forall k v, sget out k = Some v <-> sget d k = Some v /\ exists s, selected m d s /\ s_name s = k.
Proof.
  intros SM H. destruct (strict_message_ok m SM) as [OK BC].
  destruct (gather_spec m d out OK BC H) as (_ & G2 & G3 & _). split; assumption.
Qed.
Example C11_hypotheses : exists out, gather_signals ex_msg (("Zzz"%string, VNum (NInt 1)) :: ex_data) = Ok out /\ List.length out = 7%nat.
Proof. eexists. split; vm_compute; reflexivity. Qed.

Theorem C11_gather_error m d e :
  strict_message m -> mux_values_finite (m_signals m) d -> gather_signals m d = Err e -> e = EncodeError.
Proof.
  intros SM MF H. destruct (strict_message_ok m SM) as [OK BC].
  exact (gather_err (m_signals m) (m_length m) d None None (m_codec m) e (mo_names _ OK) MF (mo_wfc _ OK) H).
Qed.
Example C11_error_hypotheses : mux_values_finite (m_signals ex_msg) ex_bad_data /\
  gather_signals ex_msg ex_bad_data = Err EncodeError /\ gather_signals ex_msg (sdel ex_data "B"%string) = Err EncodeError.
Proof.
  split; [|split; vm_compute; reflexivity]. intros s x H. sig_cases H; intros EM G; try discriminate; vm_compute in G; injection G as <-; vm_compute; eauto.
Qed.

(** ** C12 *)
Theorem C12_strict_encode_iff m d scaling padding bytes :
  strict_message m ->
  encode m d scaling padding true = Ok bytes <->
  (encode m d scaling padding false = Ok bytes /\
   (forall k, In k (map fst d) <-> exists s, selected m d s /\ s_name s = k) /\
   forall s v, selected m d s -> sget d (s_name s) = Some v -> value_allowed s scaling v).
Proof. intros SM. destruct (strict_message_ok m SM) as [OK BC]. now apply strict_encode_iff. Qed.
Example C12_hypotheses : encode ex_msg ex_data true true true = encode ex_msg ex_data true true false /\
  (exists b, encode ex_msg (sset ex_data "Speed"%string (VNum (NInt 25))) true true true = Ok b) /\
  encode ex_msg (sset ex_data "State"%string (VNum (NInt 6))) true true true = Err EncodeError /\
  (exists b, encode ex_msg (sset ex_data "State"%string (VNum (NInt 7))) true true true = Ok b) /\
  encode ex_msg (sset ex_data "Zzz"%string (VNum (NInt 0))) true true true = Err EncodeError.
Proof. vm_compute. repeat split; eauto. Qed.

(** ** C13 *)
Theorem C13_truncated_decode m data decode_choices scaling allow_truncated allow_excess n full :
  strict_message m -> (decode_choices = true -> scaling = true -> plain_tables m) -> bytes_ok data ->
  zlen data = m_length m ->
  decode m data decode_choices scaling allow_truncated allow_excess = Ok full ->
  exists out, decode m (firstn n data) decode_choices scaling true false = Ok out /\ NoDup (map fst out) /\
    forall k v, sget out k = Some v <->
      sget full k = Some v /\ exists s, s_name s = k /\
        visible (m_signals m) (selectors (m_signals m) full) (zlen (firstn n data)) s.
Proof.
  intros SM PT BO HL H. destruct (strict_message_ok m SM) as [OK BC].
  apply truncated_decode with allow_truncated allow_excess; auto; [lia|].
  intros HX. exfalso. assert (zlen (firstn n data) <= zlen data) by (unfold zlen; rewrite firstn_length; lia). lia.
Qed.
Example C13_hypotheses : plain_tables ex_msg /\ bytes_ok ex_bytes /\ zlen ex_bytes = m_length ex_msg /\
  (exists full, decode ex_msg ex_bytes true true false false = Ok full /\ List.length full = 7%nat) /\
  (exists out, decode ex_msg (firstn 5 ex_bytes) true true true false = Ok out /\ List.length out = 5%nat).
Proof.
  split; [intros s H; sig_cases H; intros E; try discriminate E; reflexivity|].
  split; [vm_compute; repeat constructor; discriminate|]. split; [vm_compute; reflexivity|].
  split; eexists; split; vm_compute; reflexivity.
Qed.

(** ** C14 *)
Theorem C14_wrong_size m data decode_choices scaling allow_truncated allow_excess :
  strict_message m -> bytes_ok data -> (decode_choices = true -> scaling = true -> plain_tables m) ->
  (zlen data < m_length m /\ allow_truncated = false) \/ (m_length m < zlen data /\ allow_excess = false) ->
  decode m data decode_choices scaling allow_truncated allow_excess = Err DecodeError.
Proof.
  intros SM BO PT H. destruct (strict_message_ok m SM) as [OK BC].
  apply (decode_wrong_size m OK decode_choices scaling data allow_truncated allow_excess BO H).
Qed.
Example C14_hypotheses : decode ex_msg (firstn 7 ex_bytes) true true false true = Err DecodeError /\
  decode ex_msg (ex_bytes ++ [0]) true true true false = Err DecodeError /\ plain_tables ex_msg.
Proof.
  split; [vm_compute; reflexivity|]. split; [vm_compute; reflexivity|].
  intros s H. sig_cases H; intros E; try discriminate E; reflexivity.
Qed.

Theorem C14_excess_ignored m data extra decode_choices scaling allow_truncated :
  strict_message m -> (decode_choices = true -> scaling = true -> plain_tables m) ->
  bytes_ok data -> bytes_ok extra -> zlen data = m_length m ->
  (forall out, decode m (data ++ extra) decode_choices scaling allow_truncated true = Ok out ->
     exists out', decode m data decode_choices scaling allow_truncated true = Ok out' /\ forall k, sget out k = sget out' k) /\
  (forall out, decode m data decode_choices scaling allow_truncated true = Ok out ->
     exists out', decode m (data ++ extra) decode_choices scaling allow_truncated true = Ok out' /\ forall k, sget out k = sget out' k).
Proof.
  intros SM PT BO BX HL. destruct (strict_message_ok m SM) as [OK BC].
  assert (BA : bytes_ok (data ++ extra)) by now apply Forall_app.
  assert (LA : m_length m <= zlen (data ++ extra)) by (unfold zlen in *; rewrite app_length; lia).
  assert (FA : firstn (Z.to_nat (m_length m)) (data ++ extra) = data).
  { replace (Z.to_nat (m_length m)) with (List.length data + 0)%nat by (unfold zlen in HL; lia).
    rewrite firstn_app_2. cbn. now rewrite app_nil_r. }
  assert (DE : forall out, decoded m (data ++ extra) decode_choices scaling out <-> decoded m data decode_choices scaling out).
  { intros out. rewrite (decoded_prefix m (data ++ extra)) by assumption. now rewrite FA. }
  split; intros out H.
  - destruct (decode_spec m OK BC decode_choices scaling PT _ _ _ _ BA H) as [D _]. apply DE in D as D'.
    destruct (decode_complete m OK BC decode_choices scaling PT data allow_truncated true out BO) as [out' HO]; auto; [lia|].
    exists out'. split; [assumption|]. destruct (decode_spec m OK BC decode_choices scaling PT _ _ _ _ BO HO) as [D2 _].
    now apply (decoded_unique m data decode_choices scaling).
  - destruct (decode_spec m OK BC decode_choices scaling PT _ _ _ _ BO H) as [D _]. apply DE in D as D'.
    destruct (decode_complete m OK BC decode_choices scaling PT (data ++ extra) allow_truncated true out BA) as [out' HO]; auto; [lia|].
    exists out'. split; [assumption|]. destruct (decode_spec m OK BC decode_choices scaling PT _ _ _ _ BA HO) as [D2 _].
    now apply (decoded_unique m (data ++ extra) decode_choices scaling).
Qed.
Example C14_excess_hypotheses : plain_tables ex_msg /\ bytes_ok ex_bytes /\ bytes_ok [1; 2] /\
  zlen ex_bytes = m_length ex_msg /\ exists out, decode ex_msg (ex_bytes ++ [1; 2]) true true false true = Ok out.
Proof.
  split; [intros s H; sig_cases H; intros E; try discriminate E; reflexivity|].
  split; [vm_compute; repeat constructor; discriminate|]. split; [repeat constructor; discriminate|].
  split; [vm_compute; reflexivity|]. eexists. vm_compute. reflexivity.
Qed.

(** ** C15 *)
Theorem C15_order_irrelevant fid ext name len unused sigs sigs' m :
  0 <= len -> names_unique sigs -> (forall s, In s sigs -> 0 <= s_start s) ->
  (forall s, In s sigs -> built_conv (s_conv s)) -> 0 <= unused < 256 ->
  Permutation sigs sigs' ->
  mk_message fid ext name len unused sigs true SortDefault = Ok m ->
  exists m', mk_message fid ext name len unused sigs' true SortDefault = Ok m' /\
    (forall d scaling padding bytes,
       encode m d scaling padding false = Ok bytes <-> encode m' d scaling padding false = Ok bytes) /\
    (forall data decode_choices scaling allow_truncated allow_excess out,
       (decode_choices = true -> scaling = true -> plain_tables m) -> bytes_ok data ->
       decode m data decode_choices scaling allow_truncated allow_excess = Ok out ->
       exists out', decode m' data decode_choices scaling allow_truncated allow_excess = Ok out' /\
                    forall k, sget out k = sget out' k).
Proof.
  intros HL HN HS HB HU HP H.
  assert (HP' := Permutation_sym HP).
  assert (HN' : names_unique sigs') by (eapply Permutation_NoDup; [apply Permutation_map; exact HP|exact HN]).
  assert (HS' : forall s, In s sigs' -> 0 <= s_start s) by (intros s Hs; apply HS; now apply (Permutation_in _ HP')).
  assert (HB' : forall s, In s sigs' -> built_conv (s_conv s)) by (intros s Hs; apply HB; now apply (Permutation_in _ HP')).
  assert (EX : exists m', mk_message fid ext name len unused sigs' true SortDefault = Ok m').
  { apply mk_message_iff; auto. destruct (proj1 (mk_message_iff fid ext name len unused sigs HL HN HS)) as (Q1 & Q2 & Q3 & Q4); [eauto|].
    split; [assumption|]. split; [intros s Hs; apply Q2; now apply (Permutation_in _ HP')|].
    split; [intros mv s A; apply (Q3 mv s); now apply (active_perm _ _ mv s HP')|].
    now apply (layout_ok_perm sigs). }
  destruct EX as [m' H']. exists m'. split; [assumption|].
  assert (SM : strict_message m) by (exists fid, ext, name, len, unused, sigs; auto 10).
  assert (SM' : strict_message m') by (exists fid, ext, name, len, unused, sigs'; auto 10).
  destruct (strict_message_ok m SM) as [OK BC]. destruct (strict_message_ok m' SM') as [OK' BC'].
  destruct (mk_message_basic _ _ _ _ _ _ _ _ _ H) as (_ & E1 & E2 & E3 & _).
  destruct (mk_message_basic _ _ _ _ _ _ _ _ _ H') as (_ & E1' & E2' & E3' & _).
  assert (SS : same_signals m m').
  { split; [|split; congruence]. rewrite E1, E1'. cbn.
    etransitivity; [apply sort_default_perm|]. etransitivity; [exact HP|]. symmetry. apply sort_default_perm. }
  assert (SS' := same_signals_sym _ _ SS).
  split.
  - intros d sc pad bytes. split; intros HE.
    + eapply (encode_order m m'); eauto. intros _. now rewrite E3.
    + eapply (encode_order m' m); eauto. intros _. now rewrite E3'.
  - intros data dc sc at_ ae out PT BO HD. eapply (decode_order m m'); eauto.
Qed.
Example C15_hypotheses : Permutation ex_sigs (rev ex_sigs) /\ rev ex_sigs <> ex_sigs /\ names_unique ex_sigs /\
  (forall s, In s ex_sigs -> 0 <= s_start s) /\ (forall s, In s ex_sigs -> built_conv (s_conv s)) /\
  mk_message 291 false "Ex" 8 255 ex_sigs true SortDefault = Ok ex_msg.
Proof.
  split; [apply Permutation_rev|]. split; [discriminate|]. split; [apply names_nodup; vm_compute; reflexivity|].
  split; [|split; [exact ex_built|vm_compute; reflexivity]].
  intros s H. repeat (destruct H as [<-|H]; [cbn; lia|]). contradiction.
Qed.

(** With sort_signals=None the order of the list matters: two little endian signals listed in
    descending order cannot be encoded (OverflowError) although the strict check passes. *)
Theorem C15_unsorted_order_irrelevant_refuted :
  exists sigs sigs' m m' d b,
    Permutation sigs sigs' /\ names_unique sigs /\
    mk_message 1 false "M" 2 0 sigs true SortNone = Ok m /\
    mk_message 1 false "M" 2 0 sigs' true SortNone = Ok m' /\
    encode m d false false true = Ok b /\ encode m' d false false true <> Ok b.
Proof.
  exists [sig "A" 0 4 false false plain_conv; sig "B" 4 4 false false plain_conv],
         [sig "B" 4 4 false false plain_conv; sig "A" 0 4 false false plain_conv].
  do 2 eexists. exists [("A"%string, VNum (NInt 1)); ("B"%string, VNum (NInt 2))]. eexists.
  split; [apply perm_swap|]. split; [apply names_nodup; vm_compute; reflexivity|].
  split; [vm_compute; reflexivity|]. split; [vm_compute; reflexivity|].
  split; [vm_compute; reflexivity|]. intros E. vm_compute in E. discriminate E.
Qed.

(** ** Further refuted claims *)

(** Without the assumption of integer selectors the raw round trip (C04) fails: 1.7 selects branch 1
    but 2 is written into the frame. *)
Definition f1_7 : float := S754_finite false 7656119366529843 (-52).
Theorem C04_float_selector_refuted :
  exists m d bytes, strict_message m /\ encode m d false false true = Ok bytes /\
    (exists s, selected m d s /\ s_name s = "P"%string) /\
    forall out, decode m bytes false false false false = Ok out -> sget out "P"%string = None.
Proof.
  set (sigs := [mkSignal "Mux" 0 4 false false plain_conv None None true None None;
                muxed "P" 4 4 false false plain_conv [1] "Mux"; muxed "Q" 4 4 false false plain_conv [2] "Mux"]%string).
  assert (SM : exists m, mk_message 1 false "M" 1 0 sigs true SortDefault = Ok m) by (eexists; vm_compute; reflexivity).
  destruct SM as [m Hm].
  assert (ST : strict_message m).
  { exists 1, false, "M"%string, 1, 0, sigs. split; [assumption|]. split; [lia|].
    split; [apply names_nodup; vm_compute; reflexivity|]. split; intros s H.
    - repeat (destruct H as [<-|H]; [cbn; lia|]). contradiction.
    - repeat (destruct H as [<-|H]; [apply built_conv_of; eexists; vm_compute; reflexivity|]). contradiction. }
  exists m, [("Mux", VNum (NFlt f1_7)); ("P", VNum (NInt 9))]%string, [146]. split; [assumption|].
  destruct (strict_message_ok m ST) as [OK BC].
  vm_compute in Hm. injection Hm as <-. split; [vm_compute; reflexivity|]. split.
  - exists (muxed "P" 4 4 false false plain_conv [1] "Mux"). split; [|reflexivity].
    match goal with |- selected ?m ?d ?s => refine (proj1 (sel_d m OK BC d s) _) end. vm_compute. auto.
  - intros out H. vm_compute in H. injection H as <-. reflexivity.
Qed.

(** Two signals of the same name in different branches: the strict check passes although one
    of them overlaps a third signal selected together with it. *)
Theorem C08_duplicate_names_refuted :
  exists sigs m, mk_message 1 false "M" 2 0 sigs true SortDefault = Ok m /\ ~ layout_ok sigs 2.
Proof.
  exists [mkSignal "Mux" 0 4 false false plain_conv None None true None None;
          muxed "P" 4 4 false false plain_conv [1] "Mux"; muxed "Q" 6 4 false false plain_conv [1] "Mux";
          muxed "P" 12 4 false false plain_conv [2] "Mux"]%string.
  eexists. split; [vm_compute; reflexivity|]. intros H.
  set (mv := fun _ : string => Some 1).
  assert (AM : active [mkSignal "Mux" 0 4 false false plain_conv None None true None None;
          muxed "P" 4 4 false false plain_conv [1] "Mux"; muxed "Q" 6 4 false false plain_conv [1] "Mux";
          muxed "P" 12 4 false false plain_conv [2] "Mux"]%string mv (mkSignal "Mux" 0 4 false false plain_conv None None true None None)).
  { apply active_root; [now left|reflexivity]. }
  destruct (H mv (muxed "P" 4 4 false false plain_conv [1] "Mux")) as [_ D].
  { apply active_child with (mkSignal "Mux" 0 4 false false plain_conv None None true None None) 1 [1]; [cbn; tauto|reflexivity|exact AM|reflexivity|reflexivity|reflexivity|now left]. }
  apply (D (muxed "Q" 6 4 false false plain_conv [1] "Mux")) with 6.
  - apply active_child with (mkSignal "Mux" 0 4 false false plain_conv None None true None None) 1 [1]; [cbn; tauto|reflexivity|exact AM|reflexivity|reflexivity|reflexivity|now left].
  - discriminate.
  - exists 2. split; [cbn; lia|reflexivity].
  - exists 0. split; [cbn; lia|reflexivity].
Qed.
