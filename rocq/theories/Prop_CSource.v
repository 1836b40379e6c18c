(** Prop_CSource: C38, C39: the generated C functions agree with encode and decode. *)
From Coq Require Import Floats.SpecFloat.
From Verif Require Import Base PyNum Conversion Signal Bitstruct Formats Message LayoutSpec CodecSpec DictLemmas BitsLemmas GenItems NodeProofs
     TreeProofs Construct CodecThms RoundTrip MsgThms Examples CSource CSegments CProofs CLevels.

(** Messages for which C code can be generated faithfully: no signal is longer than 64 bits, float signals
    have the size of a C float or double, multiplexers are integers and every case label is
    representable in the type of the switch expression. *)
Record c_message (m : message) : Prop := {
  cm_len : forall s, In s (m_signals m) -> s_length s <= 64;
  cm_float : forall s, In s (m_signals m) -> conv_is_float (s_conv s) = true -> s_length s = 32 \/ s_length s = 64;
  cm_mux : forall s, In s (m_signals m) -> s_is_mux s = true -> conv_is_float (s_conv s) = false;
  cm_label : forall s i, In s (m_signals m) -> s_is_mux s = true -> known_id (m_signals m) s i -> label_fits s i
}.

Lemma friendly m : msg_ok m -> c_message m -> c_friendly (m_signals m).
Proof.
  intros OK [C1 C2 C3 C4]. split; try apply OK; [|exact C4]. intros s Hs. split; [now apply C1|]. intros F. now apply C2.
Qed.

(** The value a C program sees in a struct member *)
Definition c_value (s : signal) (rep : Z) : num :=
  if conv_is_float (s_conv s) then NFlt (bits_to_float (s_length s) rep) else NInt (c_int (type_length s) (s_signed s) rep).

Lemma active_ext_mux all mv mv' : (forall t, active all mv t -> s_is_mux t = true -> mv (s_name t) = mv' (s_name t)) ->
  forall s, active all mv s <-> active all mv' s.
Proof.
  intros H s. split.
  - intros A. induction A as [s Hs HN|s m v ids Hs Hm A IH Em Ev Ei Hv]; [now apply active_root|].
    apply active_child with m v ids; auto. rewrite <- H; auto.
  - intros A. induction A as [s Hs HN|s m v ids Hs Hm A IH Em Ev Ei Hv]; [now apply active_root|].
    apply active_child with m v ids; auto. rewrite H; auto.
Qed.

Lemma c_int_fits s z : s_length s <= 64 -> 0 < s_length s -> int_fits s z -> c_int (type_length s) (s_signed s) (z mod 2 ^ type_length s) = z.
Proof.
  intros L P F. assert (T := type_fits s L). unfold int_fits in F. unfold c_int. set (w := type_length s) in *.
  assert (E : 2 ^ w = 2 * 2 ^ (w - 1)) by (rewrite <- Z.pow_succ_r by lia; f_equal; lia).
  destruct (s_signed s); cbn [andb].
  - assert (Q := pow_mono (s_length s - 1) (w - 1) ltac:(lia)). destruct (Z.lt_ge_cases z 0).
    + replace (z mod 2 ^ w) with (z + 2 ^ w) by (apply Z.mod_unique with (-1); lia).
      destruct (Z.leb_spec (2 ^ (w - 1)) (z + 2 ^ w)); lia.
    + rewrite Z.mod_small by lia. destruct (Z.leb_spec (2 ^ (w - 1)) z); lia.
  - assert (Q := pow_mono (s_length s) w ltac:(lia)). now rewrite Z.mod_small by lia.
Qed.

Lemma payload_bit_app a b i : 0 <= i -> payload_bit (a ++ b) i = if i <? 8 * zlen a then payload_bit a i else payload_bit b (i - 8 * zlen a).
Proof.
  intros Hi. unfold payload_bit, zlen. destruct (Z.ltb_spec i (8 * Z.of_nat (List.length a))).
  - rewrite app_nth1; [reflexivity|]. assert (i / 8 < Z.of_nat (List.length a)) by (apply Z.div_lt_upper_bound; lia).
    assert (0 <= i / 8) by (apply Z.div_pos; lia). lia.
  - rewrite app_nth2.
    + replace (i - 8 * Z.of_nat (List.length a)) with (i + (- Z.of_nat (List.length a)) * 8) by lia.
      rewrite Z.div_add, Z.mod_add by lia. f_equal. f_equal. lia.
    + assert (Z.of_nat (List.length a) <= i / 8) by (apply Z.div_le_lower_bound; lia). lia.
Qed.

Lemma zero_bits n i : payload_bit (repeat 0 n) i = false.
Proof.
  unfold payload_bit. replace (nth (Z.to_nat (i / 8)) (repeat 0 n) 0) with 0; [apply Z.bits_0|].
  generalize (Z.to_nat (i / 8)). induction n as [|n IH]; intros [|k]; cbn; auto.
Qed.

(** C38, for all structs: the function writes exactly the bits of the members of the selected signals, and
    zeros to all other bits of the frame.  Bytes behind the frame are not touched.  [host] is the byte
    order of the host. *)
Theorem C38_pack_struct host m src dst size :
  strict_message m -> c_message m -> 0 < m_length m -> bytes_ok dst -> m_length m <= size -> size <= zlen dst ->
  (forall s, In s (m_signals m) -> 0 <= src (member s) < 2 ^ type_length s) ->
  exists frame, c_pack host m src dst size = Some (m_length m, frame ++ skipn (Z.to_nat (m_length m)) dst) /\
    zlen frame = m_length m /\ bytes_ok frame /\
    forall b, 0 <= b < 8 * m_length m ->
      (payload_bit frame b = true <->
       exists s k, active (m_signals m) (mem_selectors (m_signals m) src) s /\ 0 <= k < s_length s /\
                   bit_pos s k = b /\ Z.testbit (src (member s)) k = true).
Proof.
  intros SM CM LEN BO LS SZ SRC. destruct (strict_message_ok m SM) as [OK _]. assert (CF := friendly m OK CM).
  set (n := m_length m) in *. set (all := m_signals m) in *.
  unfold c_pack. fold n all. destruct (Z.ltb_spec 0 n); [|lia]. destruct (Z.ltb_spec size n); [lia|].
  destruct (Z.ltb_spec (zlen dst) n); [lia|]. rewrite (mo_tree _ OK).
  set (buf := repeat 0 (Z.to_nat n) ++ skipn (Z.to_nat n) dst).
  assert (LZ : zlen (repeat 0 (Z.to_nat n)) = n) by (unfold zlen; rewrite repeat_length; lia).
  assert (LB : zlen buf = zlen dst). { unfold buf, zlen in *. rewrite app_length, repeat_length, skipn_length. lia. }
  assert (BB : bytes_ok buf).
  { apply Forall_app. split.
    - apply Forall_forall. intros x Hx. apply repeat_spec in Hx. subst. unfold byte_ok. lia.
    - apply Forall_forall. intros x Hx. unfold bytes_ok in BO. rewrite Forall_forall in BO. apply BO.
      rewrite <- (firstn_skipn (Z.to_nat n) dst). apply in_or_app. now right. }
  assert (ACT := sel_list_active all n (mem_selectors all src) (m_codec m) (mo_names _ OK) (mo_wfc _ OK)).
  destruct (pack_core host all n CF None None (m_codec m) (mo_wfc _ OK) (mkCstate src no_locals buf)) as (e & -> & A); [exact BB| |].
  { cbn [c_mem c_buf]. intros s Hs. apply ACT in Hs. split; cbn [c_buf c_mem].
    - intros b Ob. apply (mo_layout _ OK) in Hs. destruct Hs as [F _]. apply F in Ob. fold n in Ob. lia.
    - apply SRC. eapply active_in; eauto. }
  destruct A as [A1 A2 A3 A4]. cbn [c_mem c_buf] in *.
  assert (FST : zlen (firstn (Z.to_nat n) (c_buf e)) = n) by (unfold zlen in *; rewrite firstn_length; lia).
  assert (BE := A3 BB).
  assert (BF : bytes_ok (firstn (Z.to_nat n) (c_buf e))).
  { rewrite <- (firstn_skipn (Z.to_nat n)) in BE. apply Forall_app in BE. tauto. }
  exists (firstn (Z.to_nat n) (c_buf e)).
  assert (SPEC : forall b, 0 <= b < 8 * zlen buf -> (bits_of (mkCstate src no_locals buf) (sel_list (mem_selectors all src) (m_codec m)) b <->
     exists s k, active all (mem_selectors all src) s /\ 0 <= k < s_length s /\ bit_pos s k = b /\ Z.testbit (src (member s)) k = true)).
  { intros b Hb. unfold bits_of, signal_bits. cbn [c_mem]. split.
    - intros (s & Hs & k & K). exists s, k. now rewrite <- ACT.
    - intros (s & k & Hs & K). exists s. rewrite ACT. eauto. }
  split; [|split; [exact FST|split; [exact BF|]]].
  - cbn [option_map]. do 2 f_equal. apply payload_ext; auto.
    + apply Forall_app. split; [exact BF|]. apply Forall_app in BB. apply BB.
    + unfold zlen in *. rewrite app_length, firstn_length, skipn_length. lia.
    + rewrite A2. intros b Hb. rewrite payload_bit_app by lia. rewrite FST. destruct (Z.ltb_spec b (8 * n)).
      * unfold payload_bit. rewrite <- (firstn_skipn (Z.to_nat n) (c_buf e)) at 1. rewrite app_nth1; [reflexivity|].
        unfold zlen in *. assert (b / 8 < n) by (apply Z.div_lt_upper_bound; lia). assert (0 <= b / 8) by (apply Z.div_pos; lia). lia.
      * apply eq_true_iff_eq. rewrite A4 by lia. unfold buf at 1. rewrite payload_bit_app, LZ by lia.
        destruct (Z.ltb_spec b (8 * n)); [lia|]. split; [|auto]. intros [P|P]; [exact P|]. exfalso. apply SPEC in P; [|lia].
        destruct P as (s & k & As & K & <- & _). apply (mo_layout _ OK) in As. destruct As as [F _]. 
        assert (O : occupies s (bit_pos s k)) by (exists k; auto). apply F in O. fold n in O. lia.
  - intros b Hb. assert (EQ : payload_bit (firstn (Z.to_nat n) (c_buf e)) b = payload_bit (c_buf e) b).
    { rewrite <- (firstn_skipn (Z.to_nat n) (c_buf e)) at 2. rewrite payload_bit_app, FST by lia.
      destruct (Z.ltb_spec b (8 * n)); [reflexivity|lia]. }
    rewrite EQ, A4, SPEC by lia. split; [|auto]. intros [P|P]; [|exact P]. exfalso.
    unfold buf in P. rewrite payload_bit_app, LZ in P by lia. destruct (Z.ltb_spec b (8 * n)); [|lia].
    now rewrite zero_bits in P.
Qed.

(** The struct holds the raw values of a dictionary. *)
Definition struct_holds (m : message) (d : list (string * value)) (src : string -> Z) : Prop :=
  forall s, In s (m_signals m) -> 0 <= src (member s) < 2 ^ type_length s /\
    (active (m_signals m) (selectors (m_signals m) d) s -> forall v raw x, sget d (s_name s) = Some v -> raw_value s false v raw ->
       raw_bits s raw x -> src (member s) = x mod 2 ^ type_length s).

Lemma c_mux m d src sc pad bytes : msg_ok m -> c_message m -> frame_for m d sc pad bytes -> sc = false ->
  struct_holds m d src ->
  (forall s, In s (m_signals m) -> s_is_mux s = true -> forall v, sget d (s_name s) = Some v -> exists z, v = VNum (NInt z)) ->
  forall s, active (m_signals m) (selectors (m_signals m) d) s -> s_is_mux s = true ->
    selectors (m_signals m) d (s_name s) = mem_selectors (m_signals m) src (s_name s).
Proof.
  intros OK CM F -> SH MI s A Em. assert (Hs := active_in _ _ _ A).
  destruct (ff_bits _ _ _ _ _ F s A) as (v & raw & x & V1 & V2 & V3 & _).
  destruct (MI s Hs Em v V1) as [z ->].
  assert (NF := cm_mux _ CM s Hs Em).
  destruct (SH s Hs) as [_ SH']. specialize (SH' A _ _ _ V1 V2 V3).
  unfold raw_value in V2. rewrite NF in V2. destruct V2 as (z' & E1 & ->). cbn in E1. apply Ok_inj in E1. subst z'.
  unfold raw_bits in V3. rewrite NF in V3. destruct V3 as [IF ->].
  unfold selectors, mem_selectors. rewrite find_signal_in by (auto; apply OK). rewrite V1. cbn [option_map selector py_int].
  rewrite SH'. rewrite c_int_fits; [reflexivity|apply CM|apply OK|]; auto.
Qed.

(** C38: if encode(scaling=False) gives a frame, then the generated function, given the raw values in the
    struct, writes the same frame.  (Multiplexer values are given as integers.) *)
Theorem C38_pack host m d strict bytes src dst size :
  strict_message m -> c_message m -> 0 < m_length m -> bytes_ok dst -> m_length m <= size -> size <= zlen dst ->
  encode m d false false strict = Ok bytes ->
  (forall s, In s (m_signals m) -> s_is_mux s = true -> forall v, sget d (s_name s) = Some v -> exists z, v = VNum (NInt z)) ->
  struct_holds m d src ->
  c_pack host m src dst size = Some (m_length m, bytes ++ skipn (Z.to_nat (m_length m)) dst).
Proof.
  intros SM CM LEN BO LS SZ HE MI SH. destruct (strict_message_ok m SM) as [OK BC].
  assert (F := encode_frame m OK BC _ _ _ _ _ HE).
  destruct (C38_pack_struct host m src dst size SM CM LEN BO LS SZ) as (frame & -> & FL & FB & BITS); [intros s Hs; now apply SH|].
  do 2 f_equal. f_equal. set (n := m_length m) in *. set (all := m_signals m) in *.
  assert (AE : forall s, active all (selectors all d) s <-> active all (mem_selectors all src) s).
  { apply active_ext_mux. eapply c_mux; eauto. }
  apply payload_ext; auto; [apply F| |].
  { assert (L := ff_len _ _ _ _ _ F). unfold zlen in *. lia. }
  rewrite FL. intros b Hb. apply eq_true_iff_eq. rewrite BITS by assumption. split.
  - intros (s & k & A & K & <- & T). apply AE in A. destruct (ff_bits _ _ _ _ _ F s A) as (v & raw & x & V1 & V2 & V3 & V4).
    rewrite V4 by assumption. destruct (SH s (active_in _ _ _ A)) as [_ SH']. rewrite (SH' A _ _ _ V1 V2 V3) in T.
    assert (TF := type_fits s (cm_len _ CM s (active_in _ _ _ A))). now rewrite Z.mod_pow2_bits_low in T by lia.
  - intros T. assert (ACT := sel_list_active all n (selectors all d) (m_codec m) (mo_names _ OK) (mo_wfc _ OK)).
    assert (DEC : (exists s, active all (selectors all d) s /\ occupies s b) \/ forall s, active all (selectors all d) s -> ~ occupies s b).
    { clear -ACT. assert (D : forall s, occupies s b \/ ~ occupies s b).
      { intros s. unfold occupies. destruct (in_dec Z.eq_dec b (map (bit_pos s) (map Z.of_nat (seq 0 (Z.to_nat (s_length s)))))) as [H|H].
        - left. apply in_map_iff in H. destruct H as (k & E & Hk). exists k. split; [|exact E]. apply in_map_iff in Hk. destruct Hk as (j & <- & Hj). apply in_seq in Hj. lia.
        - right. intros (k & Hk & E). apply H. apply in_map_iff. exists k. split; [exact E|]. apply in_map_iff. exists (Z.to_nat k). split; [lia|]. apply in_seq. lia. }
      assert (G : forall l, (exists s, In s l /\ occupies s b) \/ forall s, In s l -> ~ occupies s b).
      { induction l as [|x l IH]; [right; intros s []|]. destruct (D x) as [H|H]; [left; exists x; split; [now left|exact H]|].
        destruct IH as [(s & Hs & Os)|IH]; [left; exists s; split; [now right|exact Os]|].
        right. intros s [<-|Hs]; auto. }
      destruct (G (sel_list (selectors all d) (m_codec m))) as [(s & Hs & Os)|N].
      - left. exists s. split; [now apply ACT|exact Os].
      - right. intros s Hs. apply N. now apply ACT. }
    destruct DEC as [(s & A & k & K & <-)|N].
    + destruct (ff_bits _ _ _ _ _ F s A) as (v & raw & x & V1 & V2 & V3 & V4). exists s, k. split; [now apply AE|]. split; [exact K|].
      split; [reflexivity|]. destruct (SH s (active_in _ _ _ A)) as [_ SH']. rewrite (SH' A _ _ _ V1 V2 V3).
      assert (TF := type_fits s (cm_len _ CM s (active_in _ _ _ A))). rewrite Z.mod_pow2_bits_low by lia. now rewrite <- V4.
    + rewrite (ff_rest _ _ _ _ _ F b Hb N) in T. discriminate.
Qed.

(** Too small a buffer is rejected with -EINVAL and nothing is written. *)
Theorem C38_size host m src dst size :
  0 < m_length m -> size < m_length m -> c_pack host m src dst size = Some (- 22, dst).
Proof. intros H1 H2. unfold c_pack. destruct (Z.ltb_spec 0 (m_length m)); [|lia]. destruct (Z.ltb_spec size (m_length m)); [reflexivity|lia]. Qed.

(** Too few bytes are rejected with -EINVAL and the structure is left alone. *)
Theorem C39_size host recv m dst src size :
  0 < m_length m -> size < m_length m -> c_unpack host recv m dst src size = Some (- 22, dst).
Proof. intros H1 H2. unfold c_unpack. destruct (Z.ltb_spec 0 (m_length m)); [|lia]. destruct (Z.ltb_spec size (m_length m)); [reflexivity|lia]. Qed.

(** C39: the generated function stores in every selected member of interest the raw value that
    decode(scaling=False) finds, and leaves the other members alone.  The members of interest are those
    of received signals, and the multiplexers. *)
Theorem C39_unpack host recv m src dst size :
  strict_message m -> c_message m -> NoDup (map member (m_signals m)) ->
  0 < m_length m -> bytes_ok src -> m_length m <= size -> size <= zlen src ->
  exists mem, c_unpack host recv m dst src size = Some (0, mem) /\
    (forall s, active (m_signals m) (payload_selectors (m_signals m) src) s ->
       recv (s_name s) = true \/ (s_is_mux s = true /\ exists i, known_id (m_signals m) s i) ->
       c_value s (mem (member s)) = read_raw src s /\ 0 <= mem (member s) < 2 ^ type_length s) /\
    (forall k, (forall s, active (m_signals m) (payload_selectors (m_signals m) src) s ->
                  recv (s_name s) = true \/ (s_is_mux s = true /\ exists i, known_id (m_signals m) s i) -> member s <> k) ->
       mem k = dst k).
Proof.
  intros SM CM MI LEN BO LS SZ. destruct (strict_message_ok m SM) as [OK _]. assert (CF := friendly m OK CM).
  set (n := m_length m) in *. set (all := m_signals m) in *.
  unfold c_unpack. fold n all. destruct (Z.ltb_spec 0 n); [|lia]. destruct (Z.ltb_spec size n); [lia|]. rewrite (mo_tree _ OK).
  assert (ACT := sel_list_active all n (buf_selectors all src) (m_codec m) (mo_names _ OK) (mo_wfc _ OK)).
  assert (REP : forall s, In s all -> c_value s (member_rep src s) = read_raw src s /\ 0 <= member_rep src s < 2 ^ type_length s).
  { intros s Hs. unfold c_value, read_raw, member_rep, is_float. destruct (conv_is_float (s_conv s)) eqn:F.
    - split; [reflexivity|]. assert (B := digits_bound (fun k => payload_bit src (bit_pos s k)) (Z.to_nat (s_length s))).
      assert (HL := mo_pos _ OK s Hs). rewrite Z2Nat.id in B by lia. assert (T := type_fits s (cm_len _ CM s Hs)).
      assert (Q := pow_mono (s_length s) (type_length s) ltac:(lia)). lia.
    - assert (HL := mo_pos _ OK s Hs). split.
      + f_equal. apply c_int_fits; [now apply CM|exact HL|now apply read_int_fits].
      + apply Z.mod_pos_bound. assert (T := type_fits s (cm_len _ CM s Hs)). lia. }
  assert (SELEQ : forall s, active all (payload_selectors all src) s <-> active all (buf_selectors all src) s).
  { apply active_ext_mux. intros t At Em. unfold payload_selectors, buf_selectors. assert (Ht := active_in _ _ _ At).
    rewrite find_signal_in by (auto; apply OK). cbn [option_map]. destruct (REP t Ht) as [R _]. rewrite <- R.
    unfold c_value. rewrite (cm_mux _ CM t Ht Em). reflexivity. }
  destruct (unpack_core host all n CF MI recv None None (m_codec m) (mo_wfc _ OK) (mkCstate dst no_locals src)) as (e & -> & A); [exact BO| |].
  { cbn [c_buf]. intros s Hs. apply ACT in Hs. apply (mo_layout _ OK) in Hs. destruct Hs as [F _]. intros b Ob. apply F in Ob. fold n in Ob. lia. }
  cbn [option_map]. exists (c_mem e). split; [reflexivity|]. destruct A as [A1 A2 A3]. cbn [c_buf c_mem] in *.
  assert (WR : forall s, written all recv s = true <-> recv (s_name s) = true \/ (s_is_mux s = true /\ exists i, known_id all s i)).
  { intros s. unfold written. rewrite orb_true_iff, andb_true_iff. apply or_iff_compat_l. apply and_iff_compat_l.
    assert (K := known_children all s). destruct (children_ids all s) as [|i r].
    - split; [discriminate|]. intros [i Hi]. apply K in Hi. contradiction.
    - split; [|reflexivity]. intros _. exists i. apply K. now left. }
  split.
  - intros s As W. rewrite A2.
    + apply REP. eapply active_in; eauto.
    + apply filter_In. split; [apply ACT; now apply SELEQ|now apply WR].
  - intros k Hk. apply A3. intros s Hs. apply filter_In in Hs. destruct Hs as [Hs W]. apply Hk; [apply SELEQ; now apply ACT|now apply WR].
Qed.

(** A member that is a bit field of the length of its signal keeps what is stored in it: storing reduces the value to the
    length of the field. *)
Theorem C39_bit_fields host recv m src dst size mem s :
  strict_message m -> c_message m -> NoDup (map member (m_signals m)) ->
  0 < m_length m -> bytes_ok src -> m_length m <= size -> size <= zlen src ->
  c_unpack host recv m dst src size = Some (0, mem) -> active (m_signals m) (payload_selectors (m_signals m) src) s ->
  recv (s_name s) = true \/ (s_is_mux s = true /\ exists i, known_id (m_signals m) s i) -> conv_is_float (s_conv s) = false ->
  let v := c_int (type_length s) (s_signed s) (mem (member s)) in c_int (s_length s) (s_signed s) (v mod 2 ^ s_length s) = v.
Proof.
  intros SM CM MI LEN BO LS SZ U A R F v. destruct (strict_message_ok m SM) as [OK _]. destruct (C39_unpack host recv m src dst size SM CM MI LEN BO LS SZ) as (mem' & U' & V & _). rewrite U in U'. injection U' as <-.
  destruct (V s A R) as (E & _). unfold c_value, read_raw in E. rewrite F in E. assert (Ev : v = read_int src s) by (unfold v; congruence). clearbody v. subst v.
  assert (L : 0 < s_length s) by (apply (mo_pos _ OK); now apply active_in in A). pose proof (read_int_fits src s L) as I. unfold int_fits in I. unfold c_int. set (z := read_int src s) in *.
  assert (P : 2 ^ s_length s = 2 * 2 ^ (s_length s - 1)) by (rewrite <- Z.pow_succ_r by lia; f_equal; lia). destruct (s_signed s); cbn [andb]; [|now rewrite Z.mod_small by lia].
  destruct (Z.le_gt_cases 0 z) as [Z|Z].
  - rewrite Z.mod_small by lia. destruct (Z.leb_spec (2 ^ (s_length s - 1)) z); lia.
  - assert (M : z mod 2 ^ s_length s = z + 2 ^ s_length s) by (symmetry; apply Z.mod_unique with (-1); [left; lia|lia]). rewrite M. destruct (Z.leb_spec (2 ^ (s_length s - 1)) (z + 2 ^ s_length s)); lia.
Qed.

(** Consequence: agreement with decode for frames of the exact length. *)
Theorem C39_unpack_decode host m src dst at_ ae out :
  strict_message m -> c_message m -> NoDup (map member (m_signals m)) ->
  0 < m_length m -> bytes_ok src -> zlen src = m_length m ->
  decode m src false false at_ ae = Ok out ->
  exists mem, c_unpack host (fun _ => true) m dst src (m_length m) = Some (0, mem) /\
    (forall s, In s (m_signals m) -> smem out (s_name s) = true -> sget out (s_name s) = Some (VNum (c_value s (mem (member s))))) /\
    (forall s, In s (m_signals m) -> smem out (s_name s) = false -> mem (member s) = dst (member s)).
Proof.
  intros SM CM MI LEN BO L HD. destruct (strict_message_ok m SM) as [OK BC].
  destruct (C39_unpack host (fun _ => true) m src dst (m_length m) SM CM MI LEN BO) as (mem & R & IN & OUT); [lia|lia|].
  destruct (decode_raw m src at_ ae OK BC BO L) as [DR _]. destruct (DR _ HD) as [_ DR'].
  exists mem. split; [exact R|].
  assert (UN : forall s t, In s (m_signals m) -> In t (m_signals m) -> s_name s = s_name t -> s = t).
  { intros s t Hs Ht E. apply (NoDup_map_inj s_name (m_signals m)); auto. apply OK. }
  split.
  - intros s Hs M. unfold smem, dmem in M. destruct (sget out (s_name s)) as [v|] eqn:G; [|discriminate].
    apply DR' in G as G'. destruct G' as (t & At & E & ->). assert (t = s) by (apply UN; auto; eapply active_in; eauto). subst t.
    destruct (IN s At (or_introl eq_refl)) as [V _]. now rewrite V.
  - intros s Hs M. apply OUT. intros t At _ E. assert (t = s).
    { apply (NoDup_map_inj member (m_signals m)); auto. eapply active_in; eauto. }
    subst t. unfold smem, dmem in M. destruct (sget out (s_name s)) as [v|] eqn:G; [discriminate|].
    assert (sget out (s_name s) = Some (VNum (read_raw src s))) by (apply DR'; eauto). congruence.
Qed.

(** Packing a struct whose selected members are in the range of their signals and unpacking the frame
    gives the values back, on any two hosts. *)
Theorem C39_round_trip host host' m src dst dst' :
  strict_message m -> c_message m -> NoDup (map member (m_signals m)) ->
  0 < m_length m -> bytes_ok dst -> m_length m <= zlen dst ->
  (forall s, In s (m_signals m) -> 0 <= src (member s) < 2 ^ type_length s) ->
  (forall s, active (m_signals m) (mem_selectors (m_signals m) src) s -> conv_is_float (s_conv s) = false ->
     int_fits s (c_int (type_length s) (s_signed s) (src (member s)))) ->
  exists frame mem, c_pack host m src dst (m_length m) = Some (m_length m, frame) /\
    c_unpack host' (fun _ => true) m dst' frame (m_length m) = Some (0, mem) /\
    (forall s, active (m_signals m) (mem_selectors (m_signals m) src) s -> c_value s (mem (member s)) = c_value s (src (member s))) /\
    (forall k, (forall s, active (m_signals m) (mem_selectors (m_signals m) src) s -> member s <> k) -> mem k = dst' k).
Proof.
  intros SM CM MI LEN BO SZ SRC RNG. destruct (strict_message_ok m SM) as [OK _].
  destruct (C38_pack_struct host m src dst (m_length m) SM CM LEN BO) as (fr & HP & FL & FB & BITS); [lia|lia|exact SRC|].
  set (n := m_length m) in *. set (all := m_signals m) in *. set (frame := fr ++ skipn (Z.to_nat n) dst) in *.
  assert (BF : bytes_ok frame).
  { apply Forall_app. split; [exact FB|]. apply Forall_forall. intros x Hx. unfold bytes_ok in BO. rewrite Forall_forall in BO. apply BO.
    rewrite <- (firstn_skipn (Z.to_nat n) dst). apply in_or_app. now right. }
  assert (LF : n <= zlen frame) by (unfold frame, zlen in *; rewrite app_length; lia).
  destruct (C39_unpack host' (fun _ => true) m frame dst' n SM CM MI LEN BF) as (mem & HU & IN & OUT); [lia|exact LF|].
  fold all in IN, OUT.
  assert (RD : forall s, active all (mem_selectors all src) s -> read_raw frame s = c_value s (src (member s))).
  { intros s A. assert (Hs := active_in _ _ _ A). assert (HL := mo_pos _ OK s Hs).
    assert (PB : forall k, 0 <= k < s_length s -> payload_bit frame (bit_pos s k) = Z.testbit (src (member s)) k).
    { intros k K. destruct (mo_layout _ OK _ _ A) as [FIT DIS]. assert (O : occupies s (bit_pos s k)) by (exists k; auto).
      assert (B := FIT _ O). fold n in B. unfold frame. rewrite payload_bit_app, FL by lia.
      destruct (Z.ltb_spec (bit_pos s k) (8 * n)); [|lia]. apply eq_true_iff_eq. rewrite BITS by lia. split.
      - intros (t & k' & At & K' & E & T). destruct (string_dec (s_name s) (s_name t)) as [EN|NE].
        + assert (t = s) by (symmetry; apply (NoDup_map_inj s_name all); auto; [apply OK|eapply active_in; eauto]). subst t.
          assert (k' = k) by (eapply bit_pos_inj; eauto). now subst k'.
        + exfalso. apply (DIS t At) with (bit_pos s k); [congruence|exact O|]. exists k'. auto.
      - intros T. exists s, k. auto. }
    unfold read_raw, c_value. destruct (conv_is_float (s_conv s)) eqn:F.
    - do 2 f_equal. apply digits_of_bits; auto. destruct (SRC s Hs) as [S1 S2]. split; [exact S1|].
      destruct (cm_float _ CM s Hs F) as [E|E]; unfold type_length in S2; rewrite E in S2 |- *; exact S2.
    - f_equal. apply read_int_bits; auto. intros k K. rewrite PB by assumption. unfold c_int.
      destruct (s_signed s && _); [|reflexivity].
      assert (T := type_fits s (cm_len _ CM s Hs)).
      replace (src (member s) - 2 ^ type_length s) with (src (member s) + (-1) * 2 ^ type_length s) by lia.
      rewrite <- (Z.mod_pow2_bits_low (src (member s) + _) (type_length s)) by lia. rewrite Z.mod_add by lia.
      now rewrite Z.mod_small by auto. }
  assert (AE : forall s, active all (mem_selectors all src) s <-> active all (payload_selectors all frame) s).
  { apply active_ext_mux. intros t At Em. assert (Ht := active_in _ _ _ At). unfold mem_selectors, payload_selectors.
    rewrite find_signal_in by (auto; apply OK). rewrite RD by assumption. unfold c_value. rewrite (cm_mux _ CM t Ht Em). reflexivity. }
  exists frame, mem. split; [exact HP|]. split; [exact HU|]. split.
  - intros s A. rewrite <- RD by assumption. apply IN; [now apply AE|now left].
  - intros k Hk. apply OUT. intros s As _. apply Hk. now apply AE.
Qed.

(** ** Concrete cases *)
Local Open Scope string_scope.

(** 16 bytes: nested multiplexing, signed and big endian signals, a float and a double. *)
Definition cs_sigs : list signal := [
  mkSignal "Mux" 0 4 false false plain_conv None None true None None;
  sig "SpeedLimit" 15 12 true true (conv_of (NInt 2) (NInt 5) None false);
  mkSignal "Sub" 4 3 false false plain_conv None None true (Some [1]) (Some "Mux");
  muxed "B" 24 8 false true plain_conv [0; 1] "Mux";
  muxed "C" 28 9 true false plain_conv [2] "Mux";
  muxed "E" 42 2 true true plain_conv [5] "Sub";
  muxed "F" 48 32 false false (conv_of (NInt 1) (NInt 0) None true) [1] "Mux";
  sig "G" 80 33 false true plain_conv
].
Definition cs_msg : message :=
  match mk_message 291 false "Cs" 16 255 cs_sigs true SortDefault with
  | Ok m => m
  | Err _ => mkMessage 0 false "" 0 0 [] false (Codec [] (mkFormats [] [] 0) []) (STree [])
  end.
Example cs_strict : strict_message cs_msg.
Proof.
  exists 291, false, "Cs", 16, 255, cs_sigs. split; [vm_compute; reflexivity|].
  split; [lia|]. split; [apply names_nodup; vm_compute; reflexivity|]. split.
  - intros s H. repeat (destruct H as [<-|H]; [cbn; lia|]). contradiction.
  - intros s H. repeat (destruct H as [<-|H]; [cbn [s_conv sig muxed]; apply built_conv_of; eexists; vm_compute; reflexivity|]).
    contradiction.
Qed.
Lemma ids_in all s i : known_id all s i -> In i (children_ids all s).
Proof. intros. now apply children_ids_spec. Qed.
Example cs_c : c_message cs_msg.
Proof.
  split.
  - intros s H. sig_cases H; vm_compute; discriminate.
  - intros s H. sig_cases H; intros E; vm_compute in E; try discriminate E. left. reflexivity.
  - intros s H E. sig_cases H; vm_compute in E; try discriminate E; reflexivity.
  - intros s i H E K. apply ids_in in K.
    sig_cases H; vm_compute in E; try discriminate E; vm_compute in K;
      repeat (destruct K as [<-|K]; [vm_compute; split; [discriminate|reflexivity]|]); contradiction.
Qed.
Example cs_members : NoDup (map member (m_signals cs_msg)).
Proof. apply names_nodup. vm_compute. reflexivity. Qed.
Global Opaque cs_msg.

Definition lookup (l : list (string * Z)) (k : string) : Z := match sget l k with Some v => v | None => 0 end.
Definition cs_data : list (string * value) := [("Mux", VNum (NInt 1)); ("SpeedLimit", VNum (NInt (-77))); ("Sub", VNum (NInt 5));
  ("B", VNum (NInt (-3))); ("E", VNum (NInt (-2))); ("F", VNum (NFlt f1_5)); ("G", VNum (NInt (-5)))].
Definition cs_struct : string -> Z := lookup [("mux", 1); ("speed_limit", 65459); ("sub", 5); ("b", 253); ("e", 254);
  ("f", 1069547520); ("g", 2 ^ 64 - 5); ("c", 17)].
Definition cs_bytes : list Z := match encode cs_msg cs_data false false true with Ok b => b | Err _ => [] end.
Definition cs_dst : list Z := repeat 170 18.

Example C38_example :
  encode cs_msg cs_data false false true = Ok cs_bytes /\ zlen cs_bytes = 16 /\ bytes_ok cs_dst /\
  (forall s, In s (m_signals cs_msg) -> s_is_mux s = true -> forall v, sget cs_data (s_name s) = Some v -> exists z, v = VNum (NInt z)) /\
  struct_holds cs_msg cs_data cs_struct /\
  c_pack true cs_msg cs_struct cs_dst 18 = Some (16, cs_bytes ++ [170; 170])%list.
Proof.
  split; [vm_compute; reflexivity|]. split; [vm_compute; reflexivity|].
  split; [apply Forall_forall; intros x Hx; apply repeat_spec in Hx; subst; vm_compute; split; [discriminate|reflexivity]|].
  split; [|split; [|vm_compute; reflexivity]].
  - intros s H E v V. sig_cases H; vm_compute in E; try discriminate E; vm_compute in V; injection V as <-; eauto.
  - intros s H. split.
    + sig_cases H; vm_compute; (split; [discriminate|reflexivity]).
    + intros _ v raw x V R B. sig_cases H; vm_compute in V; try discriminate V; injection V as <-;
        try (destruct R as (z & R1 & ->); vm_compute in R1; injection R1 as <-; destruct B as [_ ->]; vm_compute; reflexivity).
      vm_compute in R. subst raw. vm_compute in B. injection B as <-. vm_compute. reflexivity.
Qed.

Example C39_example :
  exists out mem, decode cs_msg cs_bytes false false false false = Ok out /\
    c_unpack false (fun _ => true) cs_msg (fun _ => 99) cs_bytes 16 = Some (0, mem) /\
    map (fun s => mem (member s)) (m_signals cs_msg) = map (fun s => if smem out (s_name s) then cs_struct (member s) else 99) (m_signals cs_msg) /\
    map (fun s => smem out (s_name s)) (m_signals cs_msg) = [true; true; true; true; false; true; true; true].
Proof.
  destruct (decode cs_msg cs_bytes false false false false) as [out|] eqn:E; [|vm_compute in E; discriminate E].
  destruct (c_unpack false (fun _ => true) cs_msg (fun _ => 99) cs_bytes 16) as [[r mem]|] eqn:U; [|vm_compute in U; discriminate U].
  vm_compute in E. injection E as <-. eexists. exists mem. split; [reflexivity|].
  assert (R : option_map (fun p => (fst p, map (fun s => snd p (member s)) (m_signals cs_msg)))
                (c_unpack false (fun _ => true) cs_msg (fun _ => 99) cs_bytes 16) = Some (0, [1; 5; 65459; 253; 99; 254; 1069547520; 2 ^ 64 - 5]))
    by (vm_compute; reflexivity).
  rewrite U in R. cbn [option_map fst snd] in R. assert (R1 := f_equal (fun o => match o with Some p => fst p | None => 7 end) R). assert (R2 := f_equal (fun o => match o with Some p => snd p | None => [] end) R). cbn beta iota in R1, R2. cbn [fst snd] in R1, R2. subst r. split; [reflexivity|].
  rewrite R2. split; vm_compute; reflexivity.
Qed.

(** The struct of the example is in range. *)
Example C39_round_trip_example :
  (forall s, In s (m_signals cs_msg) -> 0 <= cs_struct (member s) < 2 ^ type_length s) /\
  (forall s, In s (m_signals cs_msg) -> conv_is_float (s_conv s) = false ->
     int_fits s (c_int (type_length s) (s_signed s) (cs_struct (member s)))).
Proof.
  split; intros s H; sig_cases H; intros; vm_compute; (split; [discriminate|reflexivity]) || discriminate.
Qed.

(** ** What does not hold *)

(** A multiplexer value without a case: encode and decode raise, the C functions report success. *)
Definition cs_bad : list Z := 9 :: repeat 0 15.
Theorem C39_unknown_mux_refuted :
  decode cs_msg cs_bad false false false false = Err DecodeError /\
  (exists mem, c_unpack true (fun _ => true) cs_msg (fun _ => 99) cs_bad 16 = Some (0, mem)) /\
  (exists frame, c_pack true cs_msg (lookup [("mux", 9)]) (repeat 0 16) 16 = Some (16, frame)) /\
  encode cs_msg [("Mux", VNum (NInt 9)); ("SpeedLimit", VNum (NInt 0)); ("G", VNum (NInt 0))] false false true = Err EncodeError.
Proof.
  split; [vm_compute; reflexivity|]. split.
  { destruct (c_unpack true (fun _ => true) cs_msg (fun _ => 99) cs_bad 16) as [[r mem]|] eqn:E; [|vm_compute in E; discriminate E].
    exists mem. assert (R : option_map fst (c_unpack true (fun _ => true) cs_msg (fun _ => 99) cs_bad 16) = Some 0) by (vm_compute; reflexivity).
    rewrite E in R. cbn in R. now injection R as ->. }
  split; [eexists|]; vm_compute; reflexivity.
Qed.

(** Messages made of one signal *)
Definition one_msg (s : signal) : message :=
  match mk_message 1 false "One" 16 0 [s] true SortDefault with
  | Ok m => m
  | Err _ => mkMessage 0 false "" 0 0 [] false (Codec [] (mkFormats [] [] 0) []) (STree [])
  end.

(** A 16 bit float (legal for encode): the member is a double.  The function copies its first two bytes, and
    unpacking copies eight bytes out of a two byte variable. *)
Definition half := sig "H" 0 16 false false (conv_of (NInt 1) (NInt 0) None true).
Theorem C38_float16_refuted :
  (exists b, encode (one_msg half) [("H", VNum (NFlt f1_5))] false false true = Ok (0 :: 62 :: b)) /\
  (exists b, c_pack true (one_msg half) (lookup [("h", 0x3FF8000000000000)]) (repeat 0 16) 16 = Some (16, 0 :: 0 :: b)) /\
  c_unpack true (fun _ => true) (one_msg half) (fun _ => 0) (0 :: 62 :: repeat 0 14) 16 = None.
Proof. split; [eexists; vm_compute; reflexivity|]. split; [eexists; vm_compute; reflexivity|]. vm_compute. reflexivity. Qed.

(** A signal of more than 64 bits: the function shifts a uint64_t by 64, which is undefined. *)
Definition long := sig "L" 0 72 false false plain_conv.
Theorem C38_long_refuted :
  (exists b, encode (one_msg long) [("L", VNum (NInt 1))] false false true = Ok b) /\
  c_pack true (one_msg long) (lookup [("l", 1)]) (repeat 0 16) 16 = None /\
  c_unpack true (fun _ => true) (one_msg long) (fun _ => 0) (repeat 0 16) 16 = None.
Proof. split; [eexists; vm_compute; reflexivity|]. split; vm_compute; reflexivity. Qed.

(** Distinct signal names may give the same member name. *)
Definition clash_sigs := [sig "FuelLevel" 0 8 false false plain_conv; sig "Fuel_level" 8 8 false false plain_conv].
Theorem C39_member_clash_refuted :
  exists m, mk_message 1 false "Clash" 2 0 clash_sigs true SortDefault = Ok m /\ names_unique (m_signals m) /\ ~ NoDup (map member (m_signals m)).
Proof.
  destruct (mk_message 1 false "Clash" 2 0 clash_sigs true SortDefault) as [m|] eqn:E; [|vm_compute in E; discriminate E].
  exists m. split; [reflexivity|]. vm_compute in E. injection E as <-. split; [apply names_nodup; vm_compute; reflexivity|].
  intros H. vm_compute in H. inversion H as [|? ? N _]. apply N. now left.
Qed.

(** A fractional multiplexer value: encode selects with int(v) but sends round(v); the C function uses the
    value sent for both. *)
Definition f1_75 : float := S754_finite false 7881299347898368 (-52).
Definition frac_data : list (string * value) := [("Mux", VNum (NFlt f1_75)); ("SpeedLimit", VNum (NInt 0)); ("Sub", VNum (NInt 5));
  ("B", VNum (NInt 1)); ("E", VNum (NInt 0)); ("F", VNum (NInt 0)); ("G", VNum (NInt 0))].
Theorem C38_fractional_mux_refuted :
  (exists b, encode cs_msg frac_data false false true = Ok (2 + 16 * 5 :: 0 :: 0 :: 1 :: b)) /\
  (exists b, c_pack true cs_msg (lookup [("mux", 2); ("sub", 5); ("b", 1)]) (repeat 0 16) 16 = Some (16, 2 :: 0 :: 0 :: 0 :: b)).
Proof. split; eexists; vm_compute; reflexivity. Qed.
