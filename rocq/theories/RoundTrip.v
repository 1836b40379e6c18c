(** RoundTrip: consequences of the encode/decode theorems (round trips, independence, order). *)
From Coq Require Import Sorting.Permutation Sorting.Sorted Floats.SpecFloat.
From Verif Require Import Base PyNum Conversion Signal Bitstruct Formats Message LayoutSpec CodecSpec
     DictLemmas BitsLemmas FloatBits FloatRound GenItems NodeProofs CheckSignal TreeProofs MsgProofs
     CheckComplete Construct CodecThms.
Ltac Zify.zify_post_hook ::= Z.div_mod_to_equations.

Lemma codec_kind n mv c : codec_ok n c -> forall s, In s (sel_list mv c) -> kind_ok s.
Proof.
  induction 1 as [sigs fm muxes NOK HF SUB IH]. intros s Hs. apply sel_list_in in Hs.
  destruct Hs as [Hs|(m & bs & v & c' & Hm & E1 & E2 & E3 & Hs)].
  - eapply node_kind; eauto.
  - apply (get_in _ sspec) in E1. apply (get_in _ zspec) in E3. eapply IH; eauto.
Qed.

Lemma active_kind m mv s : msg_ok m -> active (m_signals m) mv s -> kind_ok s.
Proof.
  intros OK A. apply (codec_kind (m_length m) mv (m_codec m)); [apply OK|].
  apply (sel_list_active (m_signals m) (m_length m)); [apply OK|apply OK|assumption].
Qed.

(** Only the values of multiplexers matter for selection. *)
Lemma active_ext_mux all mv mv' s :
  (forall t, active all mv t -> s_is_mux t = true -> mv (s_name t) = mv' (s_name t)) ->
  active all mv s <-> active all mv' s.
Proof.
  intros H. split.
  - intros A. induction A as [s Hs HN|s m v ids Hs Hm A IH Em Ev Ei Hv].
    + now apply active_root.
    + apply active_child with m v ids; auto. rewrite <- H; assumption.
  - intros A. induction A as [s Hs HN|s m v ids Hs Hm A IH Em Ev Ei Hv].
    + now apply active_root.
    + apply active_child with m v ids; auto. rewrite H; assumption.
Qed.

(** The active signals as a list. *)
Definition active_list (m : message) (mv : string -> option Z) : list signal :=
  filter (fun s => strmem (s_name s) (map s_name (sel_list mv (m_codec m)))) (m_signals m).

Lemma active_list_in m mv s : msg_ok m -> In s (active_list m mv) <-> active (m_signals m) mv s.
Proof.
  intros OK. assert (ACT := sel_list_active (m_signals m) (m_length m) mv (m_codec m) (mo_names _ OK) (mo_wfc _ OK)).
  unfold active_list. rewrite filter_In, strmem_iff, in_map_iff. split.
  - intros [Hs (t & E & Ht)]. apply ACT in Ht.
    assert (t = s) by (apply (NoDup_map_inj s_name (m_signals m)); auto; [apply OK|now apply active_in in Ht]).
    now subst t.
  - intros A. split; [now apply active_in in A|]. exists s. split; [reflexivity|]. now apply ACT.
Qed.

Lemma active_list_names m mv : msg_ok m -> NoDup (map s_name (active_list m mv)).
Proof. intros OK. apply NoDup_filter_map. apply OK. Qed.

Lemma build_dict (l : list signal) (P : signal -> value -> Prop) :
  NoDup (map s_name l) -> (forall s, In s l -> exists v, P s v) ->
  exists out : list (string * value), map fst out = map s_name l /\
    (forall s, In s l -> exists v, sget out (s_name s) = Some v /\ P s v) /\
    (forall k v, sget out k = Some v -> exists s, In s l /\ s_name s = k).
Proof.
  induction l as [|x l IH]; intros ND H.
  - exists []. cbn. split; [reflexivity|]. split; [tauto|discriminate].
  - cbn in ND. inversion ND as [|? ? N ND']; subst. destruct IH as (out & O1 & O2 & O3); auto.
    { intros s Hs. apply H. now right. }
    destruct (H x) as [v Hv]; [now left|].
    exists ((s_name x, v) :: out). cbn [map fst]. split; [now rewrite O1|]. split.
    + intros s [->|Hs].
      * exists v. cbn. rewrite String.eqb_refl. auto.
      * destruct (O2 s Hs) as (w & W1 & W2). exists w. split; [|assumption].
        cbn. destruct (String.eqb_spec (s_name x) (s_name s)) as [E|]; [|assumption].
        exfalso. apply N. rewrite E. now apply in_map.
    + intros k w. cbn. destruct (String.eqb_spec (s_name x) k) as [E|].
      * intros _. exists x. auto.
      * intros Hk. destruct (O3 k w Hk) as (s & Hs & E). exists s. auto.
Qed.

(** ** Reading what was written *)

(** A raw value a payload can hold exactly. *)
Definition storable (s : signal) (raw : num) : Prop :=
  conv_is_float (s_conv s) = true ->
  exists y, 0 <= y < 2 ^ s_length s /\ raw = NFlt (bits_to_float (s_length s) y).

Lemma digits_of_bits data s x :
  0 < s_length s -> 0 <= x < 2 ^ s_length s ->
  (forall k, 0 <= k < s_length s -> payload_bit data (bit_pos s k) = Z.testbit x k) ->
  digits (fun k => payload_bit data (bit_pos s k)) (Z.to_nat (s_length s)) = x.
Proof.
  intros Hl Hx H. apply digits_unique; rewrite Z2Nat.id by lia; [assumption|].
  intros i Hi. symmetry. auto.
Qed.

Lemma read_int_bits data s z :
  0 < s_length s -> int_fits s z ->
  (forall k, 0 <= k < s_length s -> payload_bit data (bit_pos s k) = Z.testbit z k) ->
  read_int data s = z.
Proof.
  intros Hl HF H. unfold read_int. set (n := s_length s) in *.
  assert (HM : 0 <= z mod 2 ^ n < 2 ^ n) by (apply Z.mod_pos_bound; lia).
  assert (D : digits (fun k => payload_bit data (bit_pos s k)) (Z.to_nat n) = z mod 2 ^ n).
  { apply digits_of_bits; auto. fold n. intros k Hk. rewrite mod_pow2_testbit by assumption. now apply H. }
  rewrite D.
  rewrite (H (n - 1)) by lia. rewrite <- (mod_pow2_testbit z n) by lia.
  unfold int_fits in HF. fold n in HF. destruct (s_signed s); cbn [andb].
  - assert (T := twos_complement z n Hl HF). rewrite top_bit in T by assumption.
    destruct (Z.testbit (z mod 2 ^ n) (n - 1)); assumption.
  - now apply Z.mod_small.
Qed.

Lemma read_written data s raw x :
  kind_ok s -> storable s raw -> raw_bits s raw x ->
  (forall k, 0 <= k < s_length s -> payload_bit data (bit_pos s k) = Z.testbit x k) ->
  read_raw data s = raw.
Proof.
  intros [Hl HK] HS HR H. unfold read_raw, raw_bits in *. unfold storable in HS.
  destruct (conv_is_float (s_conv s)).
  - specialize (HK eq_refl). destruct (HS eq_refl) as (y & Hy & ->).
    f_equal. rewrite (digits_of_bits data s x); auto.
    + now apply (float_value_round (s_length s) y x).
    + eapply float_to_bits_bound; eauto.
  - destruct raw as [z|]; [|contradiction]. destruct HR as [HF ->]. f_equal. now apply read_int_bits.
Qed.

Lemma frame_read m d sc pad bytes s v raw :
  msg_ok m -> frame_for m d sc pad bytes ->
  active (m_signals m) (selectors (m_signals m) d) s ->
  sget d (s_name s) = Some v -> raw_value s sc v raw -> storable s raw -> read_raw bytes s = raw.
Proof.
  intros OK F A Hv HR HS. destruct (ff_bits _ _ _ _ _ F s A) as (v' & raw' & x & V1 & V2 & V3 & V4).
  assert (v' = v) by congruence. subst v'. assert (raw' = raw) by (eapply raw_value_fun; eauto). subst raw'.
  eapply read_written; eauto. eapply active_kind; eauto.
Qed.

(** ** decode(encode(d)) *)
Theorem roundtrip m d sc pad strict bytes dc sc' :
  msg_ok m -> (forall s, In s (m_signals m) -> built_conv (s_conv s)) ->
  (dc = true -> sc' = true -> plain_tables m) ->
  encode m d sc pad strict = Ok bytes ->
  (forall s v raw, active (m_signals m) (selectors (m_signals m) d) s -> sget d (s_name s) = Some v ->
     raw_value s sc v raw ->
     storable s raw /\ exists v', shown_value s dc sc' raw v' /\
                        (s_is_mux s = true -> selector s v' = selector s v)) ->
  exists out, decode m bytes dc sc' false false = Ok out /\ NoDup (map fst out) /\
    forall k v', sget out k = Some v' <->
      exists s v raw, active (m_signals m) (selectors (m_signals m) d) s /\ s_name s = k /\
                      sget d k = Some v /\ raw_value s sc v raw /\ shown_value s dc sc' raw v'.
Proof.
  intros OK BC PT HE HV. assert (F := encode_frame m OK BC d sc pad strict bytes HE).
  set (all := m_signals m) in *. set (mv := selectors all d) in *.
  destruct (build_dict (active_list m mv)
      (fun s v' => exists v raw, sget d (s_name s) = Some v /\ raw_value s sc v raw /\ shown_value s dc sc' raw v' /\
                     read_raw bytes s = raw /\ (s_is_mux s = true -> selector s v' = selector s v)))
    as (out & O1 & O2 & O3).
  { now apply active_list_names. }
  { intros s Hs. apply active_list_in in Hs; [|assumption].
    destruct (ff_bits _ _ _ _ _ F s Hs) as (v & raw & x & V1 & V2 & V3 & V4).
    destruct (HV s v raw Hs V1 V2) as (S1 & v' & S2 & S3). exists v', v, raw. repeat (split; [assumption|]).
    split; [|assumption]. eapply frame_read; eauto. }
  assert (ND : NoDup (map fst out)) by (rewrite O1; now apply active_list_names).
  assert (EQ : forall t, active all mv t -> s_is_mux t = true -> mv (s_name t) = selectors all out (s_name t)).
  { intros t A Et. assert (Ht := active_in _ _ _ A).
    apply (active_list_in m mv t OK) in A. destruct (O2 t A) as (v' & W1 & v & raw & W2 & _ & _ & _ & W3).
    unfold mv, selectors. rewrite !find_signal_in by (auto; apply OK). rewrite W1, W2. symmetry. auto. }
  assert (AEQ : forall s, active all mv s <-> active all (selectors all out) s) by (intros s; now apply active_ext_mux).
  assert (FITS : forall s, active all mv s -> sig_within (zlen bytes) s).
  { intros s A. rewrite (ff_len _ _ _ _ _ F). apply (mo_layout _ OK mv s A). }
  assert (DD : decoded m bytes dc sc' out).
  { split.
    - assumption.
    - fold all. intros s A _. apply AEQ in A. apply (active_list_in m mv s OK) in A.
      destruct (O2 s A) as (v' & W1 & v & raw & W2 & W3 & W4 & W5 & W6). exists v'. rewrite W5. auto.
    - fold all. intros k v Hk. destruct (O3 k v Hk) as (s & Hs & E). apply (active_list_in m mv s OK) in Hs.
      exists s. split; [now apply AEQ|]. split; [now apply FITS|assumption].
    - fold all. intros s A _. apply AEQ in A. assert (K := ff_known _ _ _ _ _ F s A).
      intros Em X. destruct (K Em X) as (z & Z1 & Z2). exists z. split; [|assumption]. rewrite <- EQ; auto. }
  assert (BO := ff_bytes _ _ _ _ _ F). assert (L := ff_len _ _ _ _ _ F).
  destruct (decode_complete m OK BC dc sc' PT bytes false false out BO) as [out' HD]; [intros Hlt; lia|intros Hlt; lia|assumption|].
  destruct (decode_spec m OK BC dc sc' PT bytes false false out' BO HD) as [DD' _].
  assert (SAME := decoded_unique m bytes dc sc' out' out OK DD' DD).
  exists out'. split; [assumption|]. split; [apply DD'|]. intros k v'. rewrite SAME. split.
  - intros Hk. destruct (O3 k v' Hk) as (s & Hs & E). subst k.
    destruct (O2 s Hs) as (w & W1 & v & raw & W2 & W3 & W4 & W5 & W6). assert (w = v') by congruence. subst w.
    apply (active_list_in m mv s OK) in Hs. exists s, v, raw. auto.
  - intros (s & v & raw & A & <- & Hv & R & S).
    apply (active_list_in m mv s OK) in A. destruct (O2 s A) as (w & W1 & v0 & raw0 & W2 & W3 & W4 & W5 & W6).
    assert (v0 = v) by congruence. subst v0. assert (raw0 = raw) by (eapply raw_value_fun; eauto). rewrite H in W4.
    assert (w = v') by (eapply shown_value_fun; eauto). congruence.
Qed.

(** ** encode(decode(bytes)) *)
Lemma read_int_fits data s : 0 < s_length s -> int_fits s (read_int data s).
Proof.
  intros Hl. unfold read_int, int_fits.
  set (u := digits (fun k => payload_bit data (bit_pos s k)) (Z.to_nat (s_length s))).
  assert (HB := digits_bound (fun k => payload_bit data (bit_pos s k)) (Z.to_nat (s_length s))). fold u in HB.
  rewrite Z2Nat.id in HB by lia.
  assert (HT : payload_bit data (bit_pos s (s_length s - 1)) = Z.testbit u (s_length s - 1)).
  { unfold u. rewrite digits_testbit by lia. rewrite Z2Nat.id by lia. destruct (Z.ltb_spec (s_length s - 1) (s_length s)); [reflexivity|lia]. }
  rewrite HT. assert (TB := top_bit u (s_length s) Hl HB).
  assert (E : 2 ^ s_length s = 2 * 2 ^ (s_length s - 1)) by (rewrite <- Z.pow_succ_r by lia; f_equal; lia).
  destruct (s_signed s); cbn [andb]; [|assumption].
  destruct (Z.testbit u (s_length s - 1)); cbn [negb] in TB; lia.
Qed.

Lemma read_raw_bits data s :
  kind_ok s -> (read_raw data s <> NFlt S754_nan) ->
  exists x, raw_bits s (read_raw data s) x /\
    forall k, 0 <= k < s_length s -> payload_bit data (bit_pos s k) = Z.testbit x k.
Proof.
  intros [Hl HK] NN. unfold raw_bits, read_raw in *.
  set (u := digits (fun k => payload_bit data (bit_pos s k)) (Z.to_nat (s_length s))).
  assert (HB := digits_bound (fun k => payload_bit data (bit_pos s k)) (Z.to_nat (s_length s))). fold u in HB.
  rewrite Z2Nat.id in HB by lia.
  assert (HT : forall k, 0 <= k < s_length s -> payload_bit data (bit_pos s k) = Z.testbit u k).
  { intros k Hk. unfold u. rewrite digits_testbit by lia. rewrite Z2Nat.id by lia.
    destruct (Z.ltb_spec k (s_length s)); [reflexivity|lia]. }
  destruct (conv_is_float (s_conv s)).
  - fold u in NN. exists u. split; [|assumption]. apply float_bits_round; auto.
    intros [N1 N2]. apply NN. unfold bits_to_float. rewrite N1, Z.eqb_refl. now rewrite (proj2 (Z.eqb_neq _ _) N2).
  - exists (read_int data s). split; [split; [now apply read_int_fits|reflexivity]|].
    intros k Hk. rewrite HT by assumption. unfold read_int. fold u.
    destruct (s_signed s && _); [|reflexivity].
    rewrite <- (mod_pow2_testbit (u - 2 ^ s_length s) (s_length s)) by assumption.
    f_equal. replace (u - 2 ^ s_length s) with (u + (-1) * 2 ^ s_length s) by lia. rewrite Z.mod_add by lia.
    symmetry. now apply Z.mod_small.
Qed.

Theorem payload_roundtrip m data out ae (pad : bool) :
  msg_ok m -> (forall s, In s (m_signals m) -> built_conv (s_conv s)) ->
  bytes_ok data -> (pad = true -> 0 <= m_unused m < 256) ->
  decode m data false false false ae = Ok out ->
  (forall k, sget out k <> Some (VNum (NFlt S754_nan))) ->
  exists bytes, encode m out false pad false = Ok bytes /\ frame_for m out false pad bytes /\
    (forall s b, active (m_signals m) (selectors (m_signals m) out) s -> occupies s b ->
                 payload_bit bytes b = payload_bit data b).
Proof.
  intros OK BC BO HP HD NN.
  destruct (decode_spec m OK BC false false ltac:(discriminate) data false ae out BO HD) as ([ND DV DO DK] & L1 & L2).
  set (all := m_signals m) in *. set (mv := selectors all out) in *.
  assert (LN : m_length m <= zlen data) by (destruct (Z.lt_ge_cases (zlen data) (m_length m)); [specialize (L1 H); discriminate|lia]).
  assert (W : forall s, active all mv s -> sig_within (zlen data) s).
  { intros s A b Ob. destruct (mo_layout _ OK mv s A) as [FIT _]. assert (B := FIT b Ob). lia. }
  assert (VV : forall s, active all mv s -> sget out (s_name s) = Some (VNum (read_raw data s)) /\
        raw_value s false (VNum (read_raw data s)) (read_raw data s)).
  { intros s A. destruct (DV s A (W s A)) as (v & V1 & V2). unfold shown_value in V2.
    assert (v = VNum (read_raw data s)) by (destruct (conv_choices (s_conv s)); assumption). subst v.
    split; [assumption|]. cbn [raw_value]. unfold read_raw. destruct (conv_is_float (s_conv s)); [reflexivity|].
    exists (read_int data s). split; reflexivity. }
  assert (RB : forall s, active all mv s -> exists x, raw_bits s (read_raw data s) x /\
            forall k, 0 <= k < s_length s -> payload_bit data (bit_pos s k) = Z.testbit x k).
  { intros s A. apply read_raw_bits; [eapply active_kind; eauto|]. intros E. apply (NN (s_name s)).
    rewrite <- E. now apply VV. }
  destruct (encode_complete m OK BC out false pad HP) as [bytes HE].
  { intros s A. apply DK; auto. }
  { fold all. fold mv. intros s A. destruct (VV s A) as [V1 V2]. destruct (RB s A) as (x & X1 & X2). eauto 8. }
  assert (F := encode_frame m OK BC _ _ _ _ _ HE).
  exists bytes. split; [assumption|]. split; [assumption|].
  intros s b A (k & Hk & <-). destruct (ff_bits _ _ _ _ _ F s A) as (v & raw & x & V1 & V2 & V3 & V4).
  destruct (VV s A) as [V1' V2']. assert (v = VNum (read_raw data s)) by congruence. subst v.
  assert (raw = read_raw data s) by (eapply raw_value_fun; eauto). subst raw.
  destruct (RB s A) as (x' & X1 & X2). assert (x' = x) by (eapply raw_bits_fun; eauto). subst x'.
  now rewrite V4, X2.
Qed.

(** ** Independence of signals *)
Theorem encode_independent m d d' k sc pad st st' b1 b2 :
  msg_ok m -> (forall s, In s (m_signals m) -> built_conv (s_conv s)) ->
  (forall s, In s (m_signals m) -> s_name s = k -> s_is_mux s = false) ->
  (forall k', k' <> k -> sget d k' = sget d' k') ->
  encode m d sc pad st = Ok b1 -> encode m d' sc pad st' = Ok b2 ->
  (forall s, active (m_signals m) (selectors (m_signals m) d) s <-> active (m_signals m) (selectors (m_signals m) d') s) /\
  (forall b, 0 <= b < 8 * m_length m ->
     (forall s, active (m_signals m) (selectors (m_signals m) d) s -> s_name s = k -> ~ occupies s b) ->
     payload_bit b1 b = payload_bit b2 b).
Proof.
  intros OK BC NM SAME E1 E2. assert (F1 := encode_frame m OK BC _ _ _ _ _ E1). assert (F2 := encode_frame m OK BC _ _ _ _ _ E2).
  set (all := m_signals m) in *.
  assert (AEQ : forall s, active all (selectors all d) s <-> active all (selectors all d') s).
  { intros s. apply active_ext_mux. intros t A Et. unfold selectors. rewrite SAME; [reflexivity|].
    intros E. rewrite (NM t) in Et; [discriminate|now apply active_in in A|assumption]. }
  split; [assumption|]. intros b Hb HN.
  destruct F1 as [L1 B1 _ F1 R1], F2 as [L2 B2 _ F2 R2]. fold all in F1, F2, R1, R2.
  set (mv := selectors all d) in *.
  destruct (existsb (fun s => occb s b) (active_list m mv)) eqn:EX.
  - apply existsb_exists in EX. destruct EX as (s & Hs & O). apply active_list_in in Hs; [|assumption]. apply occb_iff in O.
    destruct (string_dec (s_name s) k) as [E|NE]; [exfalso; now apply (HN s)|].
    destruct O as (j & Hj & <-).
    destruct (F1 s Hs) as (v & raw & x & V1 & V2 & V3 & V4).
    destruct (F2 s (proj1 (AEQ s) Hs)) as (v' & raw' & x' & V1' & V2' & V3' & V4').
    rewrite (SAME _ NE) in V1. assert (v' = v) by congruence. subst v'.
    assert (raw' = raw) by (eapply raw_value_fun; eauto). subst raw'.
    assert (x' = x) by (eapply raw_bits_fun; eauto). subst x'.
    now rewrite V4, V4'.
  - assert (HN' : forall s, active all mv s -> ~ occupies s b).
    { intros s A O. apply (active_list_in m mv s OK) in A. apply occb_iff in O.
      assert (existsb (fun s => occb s b) (active_list m mv) = true); [|congruence].
      apply existsb_exists. eauto. }
    rewrite R1, R2; auto. intros s A. apply HN'. now apply AEQ.
Qed.

(** Other signals read the same. *)
Theorem read_independent m d d' k sc pad st st' b1 b2 s :
  msg_ok m -> (forall s, In s (m_signals m) -> built_conv (s_conv s)) ->
  (forall s, In s (m_signals m) -> s_name s = k -> s_is_mux s = false) ->
  (forall k', k' <> k -> sget d k' = sget d' k') ->
  encode m d sc pad st = Ok b1 -> encode m d' sc pad st' = Ok b2 ->
  active (m_signals m) (selectors (m_signals m) d) s -> s_name s <> k ->
  read_raw b1 s = read_raw b2 s.
Proof.
  intros OK BC NM SAME E1 E2 A NE.
  destruct (encode_independent _ _ _ _ _ _ _ _ _ _ OK BC NM SAME E1 E2) as [_ IND].
  apply read_raw_ext; [apply OK; now apply active_in in A|].
  intros b Ob. apply IND.
  - destruct (mo_layout _ OK _ _ A) as [FIT _]. now apply FIT.
  - intros t At Et Ot. destruct (mo_layout _ OK _ _ A) as [_ DIS]. apply (DIS t At) with b; auto. congruence.
Qed.

(** ** Truncated frames *)

(** Selected, and it and all its multiplexers lie in the first [nb] bytes. *)
Inductive visible (all : list signal) (mv : string -> option Z) (nb : Z) : signal -> Prop :=
| visible_root s : In s all -> s_mux_sig s = None -> sig_within nb s -> visible all mv nb s
| visible_child s m v ids :
    In s all -> s_mux_sig s = Some (s_name m) -> visible all mv nb m -> s_is_mux m = true ->
    mv (s_name m) = Some v -> s_mux_ids s = Some ids -> In v ids -> sig_within nb s ->
    visible all mv nb s.

Lemma visible_active all mv nb s : visible all mv nb s -> active all mv s.
Proof.
  induction 1 as [s Hs HN HW|s m v ids Hs Hm A IH Em Ev Ei Hv HW].
  - now apply active_root.
  - now apply active_child with m v ids.
Qed.

Lemma visible_within all mv nb s : visible all mv nb s -> sig_within nb s.
Proof. now destruct 1. Qed.

Lemma payload_bit_firstn data j b : 0 <= b < 8 * Z.of_nat j -> payload_bit (firstn j data) b = payload_bit data b.
Proof.
  intros Hb. unfold payload_bit. f_equal.
  assert (G : forall (l : list Z) i j, (i < j)%nat -> nth i (firstn j l) 0 = nth i l 0).
  { induction l as [|x l IH]; intros i0 j0 H; [now rewrite firstn_nil|].
    destruct j0; [lia|]. destruct i0; [reflexivity|]. cbn. apply IH. lia. }
  apply G. lia.
Qed.

Lemma active_within_iff all o nb s :
  names_unique all ->
  (forall k v, sget o k = Some v -> exists t, active all (selectors all o) t /\ sig_within nb t /\ s_name t = k) ->
  active all (selectors all o) s -> sig_within nb s -> visible all (selectors all o) nb s.
Proof.
  intros U O A W. induction A as [s Hs HN|s m v ids Hs Hm A IH Em Ev Ei Hv].
  - now apply visible_root.
  - apply visible_child with m v ids; auto. apply IH.
    unfold selectors in Ev. destruct (find_signal all (s_name m)); [|discriminate].
    destruct (sget o (s_name m)) as [u|] eqn:EO; [|discriminate].
    destruct (O _ _ EO) as (t & At & Wt & Et).
    assert (t = m) by (apply (NoDup_map_inj s_name all); auto; [now apply active_in in At|now apply active_in in A]).
    now subst t.
Qed.

Lemma bytes_ok_firstn j data : bytes_ok data -> bytes_ok (firstn j data).
Proof.
  unfold bytes_ok. rewrite !Forall_forall. intros H x Hx. apply H.
  rewrite <- (firstn_skipn j data). apply in_or_app. now left.
Qed.

Theorem truncated_decode m data dc sc at_ ae ae' j full :
  msg_ok m -> (forall s, In s (m_signals m) -> built_conv (s_conv s)) ->
  (dc = true -> sc = true -> plain_tables m) -> bytes_ok data ->
  m_length m <= zlen data ->
  decode m data dc sc at_ ae = Ok full ->
  (m_length m < zlen (firstn j data) -> ae' = true) ->
  exists out, decode m (firstn j data) dc sc true ae' = Ok out /\ NoDup (map fst out) /\
    forall k v, sget out k = Some v <->
      sget full k = Some v /\ exists s, s_name s = k /\
        visible (m_signals m) (selectors (m_signals m) full) (zlen (firstn j data)) s.
Proof.
  intros OK BC PT BO LEN HD LAE.
  destruct (decode_spec m OK BC dc sc PT data at_ ae full BO HD) as ([ND DV DO DK] & _ & _).
  set (all := m_signals m) in *. set (cut := firstn j data) in *. set (nb := zlen cut) in *.
  set (mvf := selectors all full) in *.
  assert (LC : nb <= zlen data). { unfold nb, cut, zlen. rewrite firstn_length. lia. }
  assert (BC' : bytes_ok cut) by now apply bytes_ok_firstn.
  assert (SB : forall b, 0 <= b < 8 * nb -> payload_bit cut b = payload_bit data b).
  { intros b Hb. apply payload_bit_firstn. unfold nb, cut, zlen in Hb. rewrite firstn_length in Hb. lia. }
  assert (FITS : forall mv s, active all mv s -> sig_within (zlen data) s).
  { intros mv s A b Ob. destruct (mo_layout _ OK mv s A) as [FIT _]. assert (B := FIT b Ob). lia. }
  assert (RR : forall s, In s all -> sig_within nb s -> read_raw cut s = read_raw data s).
  { intros s Hs W. apply read_raw_ext; [now apply OK|]. intros b Ob. apply SB. now apply W. }
  (* selectors of the part that is there *)
  set (inside := fun s => (0 <=? start_bit s) && (start_bit s + s_length s <=? 8 * nb)).
  assert (INS : forall s, In s all -> inside s = true <-> sig_within nb s).
  { intros s Hs. unfold inside, sig_within. rewrite sig_fits_iff by now apply OK. rewrite andb_true_iff, Z.leb_le, Z.leb_le. reflexivity. }
  set (mvt := fun k => match find_signal all k with Some s => if inside s then mvf k else None | None => None end).
  assert (VIS : forall s, (active all mvt s /\ sig_within nb s) <-> visible all mvf nb s).
  { intros s. split.
    - intros [A W]. induction A as [s Hs HN|s m0 v ids Hs Hm A IH Em Ev Ei Hv].
      + now apply visible_root.
      + unfold mvt in Ev. rewrite find_signal_in in Ev; [|apply OK|now apply active_in in A].
        destruct (inside m0) eqn:EI; [|discriminate].
        apply visible_child with m0 v ids; auto. apply IH. apply INS; [now apply active_in in A|assumption].
    - intros V. split; [|now apply visible_within in V].
      induction V as [s Hs HN HW|s m0 v ids Hs Hm A IH Em Ev Ei Hv HW].
      + now apply active_root.
      + apply active_child with m0 v ids; auto. unfold mvt.
        assert (Hm0 := active_in _ _ _ (visible_active _ _ _ _ A)).
        rewrite find_signal_in by (auto; apply OK).
        rewrite (proj2 (INS m0 Hm0)); [assumption|]. now apply visible_within in A. }
  destruct (build_dict (filter inside (active_list m mvt)) (fun s v => sget full (s_name s) = Some v /\ shown_value s dc sc (read_raw data s) v))
    as (out & O1 & O2 & O3).
  { apply NoDup_filter_map. now apply active_list_names. }
  { intros s Hs. apply filter_In in Hs. destruct Hs as [Hs I]. apply active_list_in in Hs; [|assumption].
    assert (V : visible all mvf nb s). { apply VIS. split; [assumption|]. apply INS; [now apply active_in in Hs|assumption]. }
    apply visible_active in V. apply DV; [assumption|]. eapply FITS; eauto. }
  assert (OIN : forall s, In s (filter inside (active_list m mvt)) <-> visible all mvf nb s).
  { intros s. rewrite filter_In, active_list_in by assumption. rewrite <- VIS. split; intros [A I]; split; auto; apply INS; auto; now apply active_in in A. }
  assert (EQ : forall t, active all mvt t -> s_is_mux t = true -> mvt (s_name t) = selectors all out (s_name t)).
  { intros t A _. assert (Ht := active_in _ _ _ A). unfold mvt, selectors. rewrite !find_signal_in by (auto; apply OK).
    destruct (inside t) eqn:EI.
    - destruct (O2 t) as (v & W1 & W2 & W3). { apply OIN, VIS. split; [assumption|]. now apply INS. }
      rewrite W1. unfold mvf, selectors. rewrite find_signal_in by (auto; apply OK). now rewrite W2.
    - destruct (sget out (s_name t)) as [v|] eqn:EO; [|reflexivity].
      destruct (O3 _ _ EO) as (s & Hs & E). apply filter_In in Hs as HI. destruct HI as [_ HI].
      apply OIN in Hs. assert (s = t). { apply (NoDup_map_inj s_name all); auto; [apply OK|]. apply visible_active in Hs. now apply active_in in Hs. }
      subst s. congruence. }
  assert (AEQ : forall s, active all mvt s <-> active all (selectors all out) s) by (intros; now apply active_ext_mux).
  assert (DD : decoded m cut dc sc out).
  { split; fold all; fold nb.
    - rewrite O1. apply NoDup_filter_map. now apply active_list_names.
    - intros s A W. apply AEQ in A. destruct (O2 s) as (v & W1 & W2 & W3). { apply OIN, VIS. auto. }
      exists v. split; [assumption|]. rewrite RR; [assumption|now apply active_in in A|assumption].
    - intros k v Hk. destruct (O3 _ _ Hk) as (s & Hs & E). apply OIN, VIS in Hs. exists s.
      split; [now apply AEQ|]. tauto.
    - intros s A W. apply AEQ in A as A'. assert (V : visible all mvf nb s) by (apply VIS; auto).
      intros Em X. assert (VA := visible_active _ _ _ _ V). destruct (DK s VA (FITS _ _ VA) Em X) as (v & V1 & V2).
      exists v. split; [|assumption]. rewrite <- EQ by assumption. unfold mvt.
      rewrite find_signal_in; [|apply OK|now apply active_in in A]. now rewrite (proj2 (INS s (active_in _ _ _ A)) W). }
  destruct (decode_complete m OK BC dc sc PT cut true ae' out BC') as [out' HD']; auto.
  destruct (decode_spec m OK BC dc sc PT cut true ae' out' BC' HD') as [DD' _].
  assert (SAME := decoded_unique m cut dc sc out' out OK DD' DD).
  exists out'. split; [assumption|]. split; [apply DD'|]. intros k v. rewrite SAME. split.
  - intros Hk. destruct (O3 _ _ Hk) as (s & Hs & <-). destruct (O2 s Hs) as (w & W1 & W2 & _).
    assert (w = v) by congruence. subst w. split; [assumption|]. exists s. split; [reflexivity|]. now apply OIN.
  - intros [Hk (s & <- & V)]. apply OIN in V. destruct (O2 s V) as (w & W1 & W2 & _). congruence.
Qed.

(** ** Excess data *)
Lemma decoded_prefix m data dc sc out :
  msg_ok m -> m_length m <= zlen data ->
  decoded m data dc sc out <-> decoded m (firstn (Z.to_nat (m_length m)) data) dc sc out.
Proof.
  intros OK LEN. assert (Hn := mo_len _ OK). set (cut := firstn (Z.to_nat (m_length m)) data).
  assert (LC : zlen cut = m_length m). { unfold cut, zlen in *. rewrite firstn_length. lia. }
  assert (FITS : forall mv s, active (m_signals m) mv s -> sig_within (zlen data) s /\ sig_within (zlen cut) s).
  { intros mv s A. destruct (mo_layout _ OK mv s A) as [FIT _]. split; intros b Ob; assert (B := FIT b Ob); lia. }
  assert (RR : forall mv s, active (m_signals m) mv s -> read_raw cut s = read_raw data s).
  { intros mv s A. destruct (mo_layout _ OK mv s A) as [FIT _]. apply read_raw_ext; [apply OK; now apply active_in in A|].
    intros b Ob. assert (B := FIT b Ob). apply payload_bit_firstn. lia. }
  split; intros [ND DV DO DK]; split; auto.
  - intros s A _. rewrite (RR _ _ A). apply DV; [assumption|]. eapply FITS; eauto.
  - intros k v Hk. destruct (DO k v Hk) as (s & A & _ & E). exists s. split; [assumption|]. split; [eapply FITS; eauto|assumption].
  - intros s A _. apply DK; [assumption|]. eapply FITS; eauto.
  - intros s A _. rewrite <- (RR _ _ A). apply DV; [assumption|]. eapply FITS; eauto.
  - intros k v Hk. destruct (DO k v Hk) as (s & A & _ & E). exists s. split; [assumption|]. split; [eapply FITS; eauto|assumption].
  - intros s A _. apply DK; [assumption|]. eapply FITS; eauto.
Qed.
