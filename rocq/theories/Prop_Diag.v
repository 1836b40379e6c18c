(** Prop_Diag: properties C26 (bit numbers) and C27 (diagnostics identifiers). *)
From Coq Require Import Sorting.Sorted Floats.SpecFloat.
From Verif Require Import Base PyNum Conversion Signal Bitstruct Formats Message Did LayoutSpec CodecSpec
     DictLemmas BitsLemmas FloatBits GenItems NodeProofs Construct CodecThms RoundTrip MsgThms Examples.
Ltac Zify.zify_post_hook ::= Z.div_mod_to_equations.

(** ** C26 *)
(** Numbering the bits of each byte from the other end is its own inverse and stays in the byte. *)
Theorem C26_sawtooth_network : forall b,
  sawtooth_to_network (sawtooth_to_network b) = b /\ sawtooth_to_network b / 8 = b / 8 /\
  sawtooth_to_network b mod 8 = 7 - b mod 8 /\
  (forall b', sawtooth_to_network b = sawtooth_to_network b' -> b = b').
Proof. intros b. unfold sawtooth_to_network. repeat split; intros; lia. Qed.

(** In this numbering successive bits of a big endian signal have successive numbers, from the most
    significant one on. *)
Theorem C26_network_successive : forall s, s_big s = true -> forall k, 0 <= k < s_length s ->
  sawtooth_to_network (bit_pos s k) = sawtooth_to_network (s_start s) + (s_length s - 1 - k).
Proof.
  intros s B k Hk. rewrite bit_pos_big by assumption. now rewrite start_bit_big.
Qed.

(** A field of [len] bits at C style offset [off] gets a start bit such that the signal covers exactly
    the bits off..off+len-1: always for little endian, and for big endian if the field lies in one
    byte or consists of whole bytes.  Its least significant bit is then bit [off] (little endian or
    within one byte). *)
Definition whole_bytes (off len : Z) : Prop := off mod 8 = 0 /\ len mod 8 = 0.
Definition in_one_byte (off len : Z) : Prop := off mod 8 + len <= 8.
Theorem C26_cdd_offset : forall s off len, 0 < len -> s_length s = len ->
  s_start s = cdd_offset_to_dbc_start_bit off len (s_big s) ->
  (s_big s = true -> in_one_byte off len \/ whole_bytes off len) ->
  (forall b, occupies s b <-> off <= b < off + len) /\
  (s_big s = false \/ in_one_byte off len -> forall k, 0 <= k < len -> bit_pos s k = off + k).
Proof.
  unfold in_one_byte, whole_bytes, cdd_offset_to_dbc_start_bit. intros s off len Hl L S C. split.
  - intros b. destruct (s_big s) eqn:B.
    + rewrite occupies_big by assumption. rewrite start_bit_big by assumption.
      rewrite L, S. unfold sawtooth_to_network. specialize (C eq_refl). lia.
    + rewrite occupies_little by assumption. rewrite L, S. lia.
  - intros D k Hk. destruct (s_big s) eqn:B.
    + destruct D as [D|D]; [discriminate|].
      assert (E : sawtooth_to_network (bit_pos s k) = sawtooth_to_network (s_start s) + (s_length s - 1 - k)) by
        (apply C26_network_successive; [assumption|lia]).
      rewrite L, S in E. unfold sawtooth_to_network in E. lia.
    + unfold bit_pos. rewrite B, S. reflexivity.
Qed.
Example C26_hypotheses : exists s, s_big s = true /\ s_length s = 3 /\ s_start s = cdd_offset_to_dbc_start_bit 10 3 true /\
  in_one_byte 10 3 /\ whole_bytes 16 24 /\ bit_pos s 0 = 10.
Proof.
  exists (sig "A" 12 3 true false plain_conv). repeat split; vm_compute; congruence.
Qed.

(** For other big endian fields the offset inside the first byte is lost. *)
Theorem C26_unaligned_refuted : forall off len, 0 < len -> ~ in_one_byte off len ->
  cdd_offset_to_dbc_start_bit off len true = cdd_offset_to_dbc_start_bit (8 * (off / 8) + 7) len true.
Proof. unfold in_one_byte, cdd_offset_to_dbc_start_bit. intros. lia. Qed.
Example C26_unaligned_hypotheses : ~ in_one_byte 4 12 /\ cdd_offset_to_dbc_start_bit 4 12 true = 7 /\
  cdd_offset_to_dbc_start_bit 0 12 true = 7.
Proof. unfold in_one_byte. split; [|split; reflexivity]. vm_compute. congruence. Qed.

(** ** C27: the layout of a DID *)
Record did_layout (n : Z) (datas : list signal) : Prop := {
  dl_len : 0 <= n;
  dl_names : NoDup (map s_name datas);
  dl_pos : forall s, In s datas -> 0 < s_length s;
  dl_fits : forall s, In s datas -> sig_fits n s;
  dl_disj : forall s t, In s datas -> In t datas -> s <> t -> sig_disjoint s t;
  (* little endian datas are listed by ascending start bit *)
  dl_sorted : StronglySorted (fun a b => s_start a <= s_start b) (filter (fun s => negb (s_big s)) datas);
  dl_conv : forall s, In s datas -> built_conv (s_conv s)
}.
Lemma layout_node n l : did_layout n l -> node_ok n l.
Proof. intros []. constructor; assumption. Qed.

(** *** Hex digits *)
Lemma unhexlify_app l : forall n a b, List.length l = (2 * n)%nat ->
  unhexlify (l ++ [a; b]) = let* t := unhexlify l in Ok (t ++ [16 * a + b]).
Proof.
  intros n. revert l. induction n as [|n IH]; intros l a b H.
  - destruct l; [|discriminate]. reflexivity.
  - destruct l as [|x [|y l]]; try discriminate; [cbn in H; lia|]. cbn [app unhexlify].
    rewrite IH by (cbn in H; lia). destruct (unhexlify l); reflexivity.
Qed.
Lemma unhexlify_digits n : forall v,
  unhexlify (map (fun i => v / 16 ^ Z.of_nat i mod 16) (rev (seq 0 (2 * n)))) = Ok (to_be n v).
Proof.
  induction n as [|n IH]; intros v; [reflexivity|].
  replace (2 * S n)%nat with (S (S (2 * n)))%nat by lia. cbn [seq]. rewrite <- seq_shift, <- seq_shift, map_map.
  cbn [rev]. rewrite <- app_assoc. cbn [app]. rewrite map_app. cbn [map].
  rewrite unhexlify_app with (n := n) by now rewrite map_length, rev_length, map_length, seq_length.
  rewrite <- map_rev, map_map.
  rewrite (map_ext _ (fun i => (v / 256) / 16 ^ Z.of_nat i mod 16)).
  - rewrite IH. cbn [bind]. f_equal. unfold to_be. cbn [to_le rev]. f_equal. f_equal.
    change (16 ^ Z.of_nat 1) with 16. change (16 ^ Z.of_nat 0) with 1. lia.
  - intros i. rewrite !Nat2Z.inj_succ, !Z.pow_succ_r by lia. rewrite Z.mul_assoc. change (16 * 16) with 256.
    now rewrite Z.div_div by lia.
Qed.

Lemma hex_bytes n e : 0 <= n -> 0 <= e < 2 ^ (8 * n) ->
  unhexlify (skipn 2 (hex_digits (Z.lor e (Z.shiftl 0x80 (8 * n))))) = Ok (to_be (Z.to_nat n) e).
Proof.
  intros Hn He. rewrite Z.shiftl_mul_pow2 by lia.
  assert (E : Z.lor e (0x80 * 2 ^ (8 * n)) = e + 2 ^ (8 * n + 7)).
  { change 0x80 with (2 ^ 7). rewrite <- Z.pow_add_r by lia. replace (7 + 8 * n) with (8 * n + 7) by lia.
    symmetry. apply Z.add_nocarry_lxor || idtac. rewrite Z.add_nocarry_lxor, Z.lxor_lor; try reflexivity;
    apply Z.bits_inj'; intros i Hi; rewrite Z.land_spec, Z.bits_0, Z.pow2_bits_eqb by lia;
    (destruct (Z.eqb_spec (8 * n + 7) i) as [<-|]; [rewrite (testbit_high e (8 * n)) by lia; reflexivity|apply andb_false_r]). }
  rewrite E. unfold hex_digits.
  assert (P : 2 ^ (8 * n + 7) = 128 * 2 ^ (8 * n)) by (rewrite Z.pow_add_r by lia; lia).
  assert (P2 : 2 ^ (8 * n + 7 + 1) = 256 * 2 ^ (8 * n)) by (rewrite <- Z.add_assoc, Z.pow_add_r by lia; lia).
  replace (Z.log2 (e + 2 ^ (8 * n + 7))) with (8 * n + 7) by (symmetry; apply Z.log2_unique; [lia|]; rewrite <- ?Z.add_1_r; lia).
  replace (Z.to_nat ((8 * n + 7) / 4 + 1)) with (S (S (2 * Z.to_nat n))) by lia.
  rewrite !seq_S, !rev_app_distr. cbn [rev app map skipn]. rewrite <- unhexlify_digits.
  f_equal. apply map_ext_in. intros i Hi. apply in_rev in Hi. apply in_seq in Hi.
  replace (e + 2 ^ (8 * n + 7)) with (e + (8 * 2 ^ (8 * n - 4 * Z.of_nat i) * 16) * 16 ^ Z.of_nat i).
  - rewrite Z.div_add by (apply Z.pow_nonzero; lia). now rewrite Z.mod_add by lia.
  - rewrite P. replace (16 ^ Z.of_nat i) with (2 ^ (4 * Z.of_nat i)) by (rewrite Z.pow_mul_r by lia; reflexivity).
    replace (8 * n) with ((8 * n - 4 * Z.of_nat i) + 4 * Z.of_nat i) at 2 by lia. rewrite Z.pow_add_r by lia. lia.
Qed.

Lemma mk_did_inv n datas m : mk_did n datas = Ok m ->
  did_length m = n /\ did_datas m = datas /\ create_formats datas n = Ok (did_formats m).
Proof. unfold mk_did. intros H. apply bind_ok in H. destruct H as (f & H & E). apply Ok_inj in E. now subst m. Qed.

Lemma slice_all {A} n (l : list A) : zlen l = n -> slice 0 n l = l.
Proof. unfold slice, zlen. intros <-. cbn. rewrite firstn_all2 by lia. reflexivity. Qed.

(** Encoding succeeds exactly when every data has a value that can be stored; the result then has
    the length of the DID, the datas are at their documented bits and all other bits are zero. *)
Theorem C27_encode : forall n datas m d scaling, mk_did n datas = Ok m -> did_layout n datas ->
  ((exists bytes, did_encode m d scaling = Ok bytes) <->
   forall s, In s datas -> exists v raw x, sget d (s_name s) = Some v /\ raw_value s scaling v raw /\ raw_bits s raw x) /\
  forall bytes, did_encode m d scaling = Ok bytes ->
    zlen bytes = n /\ bytes_ok bytes /\
    (forall s, In s datas -> exists v raw x, sget d (s_name s) = Some v /\ raw_value s scaling v raw /\ raw_bits s raw x /\
       forall k, 0 <= k < s_length s -> payload_bit bytes (bit_pos s k) = Z.testbit x k) /\
    (forall b, 0 <= b < 8 * n -> (forall s, In s datas -> ~ occupies s b) -> payload_bit bytes b = false).
Proof.
  intros n datas m d sc M L. destruct (mk_did_inv _ _ _ M) as (E1 & E2 & E3).
  assert (N := layout_node _ _ L). assert (Hn : 0 <= n) by apply L.
  assert (ENC : forall bytes, did_encode m d sc = Ok bytes <->
     exists e, encode_data d datas (did_formats m) sc = Ok e /\ bytes = to_be (Z.to_nat n) e).
  { intros bytes. unfold did_encode. rewrite E1, E2. split.
    - intros H. apply bind_ok in H. destruct H as (e & He & H).
      destruct (encode_data_spec _ _ _ _ _ _ N E3 He) as (B & _).
      rewrite hex_bytes in H by assumption. cbn [bind] in H. apply Ok_inj in H. subst bytes. exists e. split; [assumption|].
      apply slice_all. unfold zlen. rewrite to_be_length. lia.
    - intros (e & He & ->). rewrite He. cbn [bind]. destruct (encode_data_spec _ _ _ _ _ _ N E3 He) as (B & _).
      rewrite hex_bytes by assumption. cbn [bind]. f_equal. apply slice_all. unfold zlen. rewrite to_be_length. lia. }
  split.
  - split.
    + intros (bytes & H). apply ENC in H. destruct H as (e & He & _).
      assert (X : exists E, encode_data d datas (did_formats m) sc = Ok E) by eauto.
      rewrite (encode_data_ok _ _ _ _ _ N E3) in X. intros s Hs. destruct (X s Hs) as (raw & x & X1 & X2).
      apply sig_raw_spec in X1; [|now apply L]. destruct X1 as (v & V1 & V2).
      destruct (pack_field_spec s raw x) as (y & Y1 & _); [now apply L|assumption|]. eauto 6.
    + intros X. assert (Y : exists E, encode_data d datas (did_formats m) sc = Ok E).
      { apply (encode_data_ok _ _ _ _ _ N E3). intros s Hs. destruct (X s Hs) as (v & raw & x & X1 & X2 & X3).
        destruct (raw_bits_pack _ _ _ X3) as (y & Y). exists raw, y. split; [|assumption].
        apply sig_raw_spec; [now apply L|]. eauto. }
      destruct Y as (e & He). exists (to_be (Z.to_nat n) e). apply ENC. eauto.
  - intros bytes H. apply ENC in H. destruct H as (e & He & ->).
    destruct (encode_data_spec _ _ _ _ _ _ N E3 He) as (B & S & Z0).
    assert (PB : forall b, 0 <= b < 8 * n -> payload_bit (to_be (Z.to_nat n) e) b = fbit n e b).
    { intros b Hb. rewrite payload_bit_to_be; rewrite ?Z2Nat.id, ?pow256 by lia; auto. }
    split; [unfold zlen; rewrite to_be_length; lia|]. split; [apply to_be_ok|]. split.
    + intros s Hs. destruct (S s Hs) as (raw & x & S1 & S2 & S3).
      apply sig_raw_spec in S1; [|now apply L]. destruct S1 as (v & V1 & V2).
      destruct (pack_field_spec s raw x) as (y & Y1 & Y2); [now apply L|assumption|].
      exists v, raw, y. repeat (split; [assumption|]). intros k Hk.
      assert (RB : 0 <= bit_pos s k < 8 * n) by (apply (dl_fits _ _ L s Hs); now apply occupies_pos).
      now rewrite PB, S3, Y2 by assumption.
    + intros b Hb HO. rewrite PB by assumption. now apply Z0.
Qed.

(** Decoding shows for every data the value of its bits; data that is too long is cut, data that is too
    short is an error without allow_truncated. *)
Theorem C27_decode : forall n datas m data at_ ae, mk_did n datas = Ok m -> did_layout n datas -> bytes_ok data ->
  (n <= zlen data -> did_decode m data false false at_ ae = Ok (map (fun s => (s_name s, VNum (read_raw data s))) datas)) /\
  (zlen data < n -> did_decode m data false false false ae = Err DecodeError).
Proof.
  intros n datas m data at_ ae M L BO. destruct (mk_did_inv _ _ _ M) as (E1 & E2 & E3).
  assert (N := layout_node _ _ L). assert (Hn : 0 <= n) by apply L.
  unfold did_decode. rewrite E1, E2.
  assert (SL : slice 0 n data = firstn (Z.to_nat n) data).
  { unfold slice. cbn. f_equal. lia. }
  assert (BO' : bytes_ok (firstn (Z.to_nat n) data)) by now apply bytes_ok_firstn.
  rewrite SL. split; intros H.
  - rewrite (decode_data_eq _ _ _ _ _ _ _ _ N E3) by assumption.
    assert (ZL : zlen (firstn (Z.to_nat n) data) = n) by (unfold zlen in *; rewrite firstn_length; lia).
    unfold fit_data. rewrite ZL, Z.eqb_refl. cbn [bind].
    assert (F : forall l, (forall s, In s l -> In s datas) ->
       mapM (fun s => let* v := decode_signal_value s (read_raw (firstn (Z.to_nat n) data) s) false false in Ok (s_name s, v))
            (filter (within n) l) = Ok (map (fun s => (s_name s, VNum (read_raw data s))) l)).
    { induction l as [|s l IH]; intros Hl; [reflexivity|]. cbn [filter].
      assert (Hs : In s datas) by (apply Hl; now left).
      assert (W : within n s = true) by (apply (within_iff n); [now apply L|now apply L|now apply (dl_fits _ _ L)]).
      rewrite W. cbn [mapM map]. rewrite IH by (intros; apply Hl; now right).
      unfold decode_signal_value. cbn [bind]. f_equal. f_equal. f_equal. f_equal.
      apply read_raw_ext; [now apply L|]. intros b Ob. apply payload_bit_firstn.
      apply (dl_fits _ _ L s Hs) in Ob. lia. }
    now apply F.
  - rewrite (decode_data_eq _ _ _ _ _ _ _ _ N E3) by assumption.
    unfold fit_data. assert (ZL : zlen (firstn (Z.to_nat n) data) = zlen data) by (unfold zlen in *; rewrite firstn_length; lia).
    rewrite ZL. destruct (Z.eqb_spec (zlen data) n); [lia|]. cbn [bind]. destruct ae.
    + assert (Z2 : zlen (firstn (Z.to_nat n) (firstn (Z.to_nat n) data)) = zlen data)
        by (unfold zlen in *; rewrite !firstn_length; lia).
      rewrite Z2. destruct (Z.eqb_spec (zlen data) n); [lia|reflexivity].
    + rewrite ZL. destruct (Z.eqb_spec (zlen data) n); [lia|reflexivity].
Qed.

(** Raw round trip. *)
Theorem C27_round_trip : forall n datas m d bytes at_ ae, mk_did n datas = Ok m -> did_layout n datas ->
  (forall s v, In s datas -> conv_is_float (s_conv s) = true -> sget d (s_name s) = Some v ->
     exists y, 0 <= y < 2 ^ s_length s /\ v = VNum (NFlt (bits_to_float (s_length s) y))) ->
  did_encode m d false = Ok bytes ->
  exists out, did_decode m bytes false false at_ ae = Ok out /\ map fst out = map s_name datas /\
    forall s v z, In s datas -> sget d (s_name s) = Some v ->
      (v = VNum z -> conv_is_float (s_conv s) = true \/ (exists i, z = NInt i) -> sget out (s_name s) = Some v) /\
      (forall raw, raw_value s false v raw -> sget out (s_name s) = Some (VNum raw)).
Proof.
  intros n datas m d bytes at_ ae M L FL H. destruct (C27_encode n datas m d false M L) as (_ & E).
  destruct (E bytes H) as (Z1 & B1 & S & _). destruct (C27_decode n datas m bytes at_ ae M L B1) as (D & _).
  eexists. split; [apply D; lia|]. split; [rewrite map_map; reflexivity|].
  destruct (mk_did_inv _ _ _ M) as (E1 & E2 & E3). assert (N := layout_node _ _ L).
  intros s v z Hs Hv. assert (K : kind_ok s) by (eapply node_kind; eauto).
  assert (R : forall raw, raw_value s false v raw -> sget (map (fun s => (s_name s, VNum (read_raw bytes s))) datas) (s_name s) = Some (VNum raw)).
  { intros raw HR. rewrite assoc_signals; [|apply L|assumption]. f_equal. f_equal.
    destruct (S s Hs) as (v' & raw' & x & S1 & S2 & S3 & S4). assert (v' = v) by congruence. subst v'.
    assert (raw' = raw) by (eapply raw_value_fun; eauto). subst raw'.
    eapply read_written; eauto. unfold storable. intros CF. destruct (FL s v Hs CF Hv) as (y & Hy & ->).
    exists y. split; [assumption|]. cbn [raw_value] in S2. now rewrite CF in S2. }
  split; [|exact R]. intros -> C. apply R. cbn [raw_value].
  destruct (conv_is_float (s_conv s)); [reflexivity|]. destruct C as [C|(i & ->)]; [discriminate|]. exists i. split; reflexivity.
Qed.

Definition did_datas_ex : list signal :=
  [sig "A" 0 5 false false plain_conv; sig "B" 15 7 true false plain_conv; sig "C" 21 3 false false plain_conv]%string.
Definition did_data_ex : list (string * value) :=
  [("A", VNum (NInt 9)); ("B", VNum (NInt 77)); ("C", VNum (NInt 5))]%string.
Example C27_hypotheses : exists m bytes, mk_did 3 did_datas_ex = Ok m /\ did_layout 3 did_datas_ex /\
  did_encode m did_data_ex false = Ok bytes /\ zlen bytes = 3 /\
  did_decode m bytes false false false false = Ok did_data_ex.
Proof.
  do 2 eexists. split; [vm_compute; reflexivity|]. split; [|split; [vm_compute; reflexivity|split; vm_compute; reflexivity]].
  assert (BP : forall s b, In s did_datas_ex -> (occupies s b <->
     (if s_big s then start_bit s <= net b < start_bit s + s_length s else s_start s <= b < s_start s + s_length s))).
  { intros s b _. destruct (s_big s) eqn:B; [now apply occupies_big|now apply occupies_little]. }
  split.
  - lia.
  - apply names_nodup. reflexivity.
  - intros s H. repeat (destruct H as [<-|H]; [cbn; lia|]). contradiction.
  - intros s H b. rewrite (BP s b H). unfold net.
    destruct H as [<-|[<-|[<-|[]]]]; cbn [s_big s_start s_length sig start_bit]; unfold start_bit; cbn [s_big s_start s_length sig]; lia.
  - intros s t Hs Ht NE b. rewrite (BP s b Hs), (BP t b Ht). unfold net.
    destruct Hs as [<-|[<-|[<-|[]]]]; destruct Ht as [<-|[<-|[<-|[]]]];
      try (exfalso; now apply NE); unfold start_bit; cbn [s_big s_start s_length sig]; lia.
  - repeat constructor; cbn; lia.
  - intros s H. repeat (destruct H as [<-|H]; [apply built_conv_of; eexists; vm_compute; reflexivity|]). contradiction.
Qed.

(** The order of little endian datas matters, unlike for messages, whose signals are sorted: with the
    same two datas listed the other way round nothing can be decoded any more. *)
Definition did_low : signal := sig "A" 0 8 false false plain_conv.
Definition did_high : signal := sig "B" 8 8 false false plain_conv.
Theorem C27_unsorted_refuted :
  (exists m, mk_did 2 [did_low; did_high] = Ok m /\ did_decode m [1; 2] false false false false =
     Ok [("A", VNum (NInt 1)); ("B", VNum (NInt 2))]%string) /\
  (exists m, mk_did 2 [did_high; did_low] = Ok m /\
     (forall data dc sc at_ ae, did_decode m data dc sc at_ ae = Err DecodeError) /\
     did_encode m [("A", VNum (NInt 1)); ("B", VNum (NInt 2))]%string false = Ok [1; 0]).
Proof.
  split.
  - eexists. split; [vm_compute; reflexivity|]. vm_compute. reflexivity.
  - eexists. split; [vm_compute; reflexivity|]. split; [|].
    2: vm_compute; reflexivity.
    intros data dc sc at_ ae. unfold did_decode, decode_data. cbn [did_length did_datas did_formats f_big f_little].
    destruct (fit_data _ _ _ _) as [d|e] eqn:E; [|apply fit_data_err in E; now subst e]. cbn [bind].
    assert (ZL : zlen d = 2).
    { unfold fit_data in E. destruct (Z.eqb_spec (zlen (slice 0 2 data)) 2); [apply Ok_inj in E; now subst d|].
      revert E. match goal with |- (if zlen ?x =? 2 then _ else _) = _ -> _ => destruct (Z.eqb_spec (zlen x) 2) end;
        [intros E; apply Ok_inj in E; now subst d|discriminate]. }
    unfold unpack. replace (zlen (rev d)) with 2 by (unfold zlen in *; rewrite rev_length; congruence).
    rewrite ZL. reflexivity.
Qed.
