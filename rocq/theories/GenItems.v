(** GenItems: the item lists of create_encode_decode_formats, treated once for both byte orders.

    [gen_items sb start l flen] places the fields of [l] at offsets [sb s] (from the most significant
    end) of a [flen] bit number.  big_items and little_items are instances. *)
From Coq Require Import Floats.SpecFloat.
From Verif Require Import Base PyNum Conversion Signal Bitstruct Formats LayoutSpec BitsLemmas FloatBits.
Ltac Zify.zify_post_hook ::= Z.div_mod_to_equations.

(** ** Fields *)
Definition field (d : list (string * num)) (s : signal) : result Z :=
  let* v := sget_exn d (s_name s) in pack_field (format_kind s) (s_length s) v.

Definition kind_ok (s : signal) : Prop :=
  0 < s_length s /\ (conv_is_float (s_conv s) = true -> float_size_ok (s_length s) = true).

Lemma pack_field_bound s v x :
  kind_ok s -> pack_field (format_kind s) (s_length s) v = Ok x -> 0 <= x < 2 ^ s_length s.
Proof.
  intros [Hl Hf]. unfold format_kind, pack_field.
  destruct (conv_is_float (s_conv s)) eqn:E.
  - apply float_to_bits_bound. auto.
  - destruct (s_signed s), v; try discriminate.
    + destruct (_ && _); [|discriminate]. intros [= <-]. apply Z.mod_pos_bound. lia.
    + destruct (_ && _) eqn:E2; [|discriminate]. intros [= <-]. lia.
Qed.

Lemma field_bound d s x : kind_ok s -> field d s = Ok x -> 0 <= x < 2 ^ s_length s.
Proof.
  intros Hk. unfold field. destruct (sget_exn d (s_name s)); cbn [bind]; [|discriminate].
  now apply pack_field_bound.
Qed.

(** ** Placement *)
Section Gen.
  Context (sb : signal -> Z).

  Fixpoint gen_items (start : Z) (l : list signal) (flen : Z) : list item :=
    match l with
    | [] => pad_if (flen - start)
    | s :: r => pad_if (sb s - start) ++ data_item s :: gen_items (sb s + s_length s) r flen
    end.

  (** The fields follow each other without overlap and end before [flen]. *)
  Fixpoint chain (start : Z) (l : list signal) (flen : Z) : Prop :=
    match l with
    | [] => start <= flen
    | s :: r => start <= sb s /\ kind_ok s /\ chain (sb s + s_length s) r flen
    end.

  Lemma chain_start l : forall start flen, chain start l flen -> start <= flen.
  Proof.
    induction l as [|s r IH]; cbn; intros start flen H; [assumption|].
    destruct H as (H1 & [H2 _] & H3). specialize (IH _ _ H3). lia.
  Qed.

  Lemma chain_in l : forall start flen s, chain start l flen -> In s l ->
    start <= sb s /\ sb s + s_length s <= flen /\ kind_ok s.
  Proof.
    induction l as [|t r IH]; cbn; intros start flen s H Hin; [contradiction|].
    destruct H as (H1 & H2 & H3). destruct Hin as [->|Hin].
    - apply chain_start in H3. destruct H2 as [Hl Hf]. repeat split; auto; lia.
    - destruct (IH _ _ _ H3 Hin) as (I1 & I2 & I3). destruct H2 as [Hl Hf].
      split; [lia|]. split; [lia|assumption].
  Qed.

  Lemma items_len_app a b : items_len (a ++ b) = items_len a + items_len b.
  Proof. induction a; cbn [items_len app]; lia. Qed.
  Lemma items_len_pad n : 0 <= n -> items_len (pad_if n) = n.
  Proof. intros. unfold pad_if. destruct (Z.ltb_spec 0 n); cbn; lia. Qed.

  Lemma gen_len l : forall start flen, chain start l flen ->
    items_len (gen_items start l flen) = flen - start.
  Proof.
    induction l as [|s r IH]; cbn [chain gen_items]; intros start flen H.
    - apply items_len_pad. lia.
    - destruct H as (H1 & H2 & H3). rewrite items_len_app, items_len_pad by lia.
      cbn [items_len item_len data_item]. rewrite IH by assumption. lia.
  Qed.

  Lemma pack_pad d n l : 0 <= n -> pack_items d (pad_if n ++ l) = pack_items d l.
  Proof.
    intros. unfold pad_if. destruct (Z.ltb_spec 0 n); cbn [app]; [|reflexivity].
    cbn [pack_items bind]. destruct (pack_items d l); cbn [bind]; [|reflexivity]. now rewrite Z.mul_0_l.
  Qed.

  Lemma pack_data d s l :
    pack_items d (data_item s :: l) =
    let* x := field d s in let* v := pack_items d l in Ok (x * 2 ^ items_len l + v).
  Proof. reflexivity. Qed.

  (** Bits written by [pack_items]. *)
  Lemma pack_gen d l : forall start flen V,
    chain start l flen -> pack_items d (gen_items start l flen) = Ok V ->
    0 <= V < 2 ^ (flen - start) /\
    (forall s, In s l -> exists x, field d s = Ok x /\ 0 <= x < 2 ^ s_length s /\
       forall k, 0 <= k < s_length s ->
         Z.testbit V (flen - sb s - s_length s + k) = Z.testbit x k) /\
    (forall j, 0 <= j ->
       (forall s, In s l -> ~ (flen - sb s - s_length s <= j < flen - sb s)) ->
       Z.testbit V j = false).
  Proof.
    induction l as [|s r IH]; cbn [chain gen_items]; intros start flen V H HV.
    - replace (pad_if (flen - start)) with (pad_if (flen - start) ++ []) in HV by apply app_nil_r.
      rewrite pack_pad in HV by lia. cbn in HV. injection HV as <-.
      repeat split; [lia|lia|intros s []|]. intros. apply Z.bits_0.
    - destruct H as (H1 & H2 & H3).
      rewrite pack_pad, pack_data in HV by lia.
      destruct (field d s) as [x|] eqn:Ex; cbn [bind] in HV; [|discriminate].
      destruct (pack_items d (gen_items _ r flen)) as [v|] eqn:Ev; cbn [bind] in HV; [|discriminate].
      injection HV as <-.
      rewrite gen_len by assumption.
      destruct (IH _ _ _ H3 Ev) as (B & F & N).
      assert (Hx := field_bound _ _ _ H2 Ex). destruct H2 as [Hl _].
      assert (Hc := chain_start _ _ _ H3).
      set (w := flen - (sb s + s_length s)) in *.
      repeat split.
      + assert (0 <= x * 2 ^ w) by (apply Z.mul_nonneg_nonneg; lia). lia.
      + replace (flen - start) with (w + (s_length s + (sb s - start))) by lia.
        rewrite !Z.pow_add_r by lia.
        assert (1 <= 2 ^ (sb s - start)) by lia.
        assert (x * 2 ^ w + v < (x + 1) * 2 ^ w) by lia.
        assert ((x + 1) * 2 ^ w <= 2 ^ s_length s * 2 ^ w) by (apply Z.mul_le_mono_nonneg_r; lia).
        assert (2 ^ w * (2 ^ s_length s * 1) <= 2 ^ w * (2 ^ s_length s * 2 ^ (sb s - start))).
        { apply Z.mul_le_mono_nonneg_l; [lia|]. apply Z.mul_le_mono_nonneg_l; lia. }
        lia.
      + intros t [<-|Ht].
        * exists x. split; [assumption|]. split; [assumption|]. intros k Hk.
          rewrite testbit_split by lia.
          destruct (Z.ltb_spec (flen - sb s - s_length s + k) w); [lia|]. f_equal. lia.
        * destruct (F t Ht) as (y & Ey & By & Ty). exists y. split; [assumption|].
          split; [assumption|]. intros k Hk.
          destruct (chain_in _ _ _ _ H3 Ht) as (C1 & C2 & _).
          rewrite testbit_split by lia.
          destruct (Z.ltb_spec (flen - sb t - s_length t + k) w); [|lia]. now apply Ty.
      + intros j Hj Hno. rewrite testbit_split by lia.
        destruct (Z.ltb_spec j w).
        * apply N; [assumption|]. intros t Ht. apply Hno. now right.
        * apply testbit_high with (n := s_length s); [assumption|].
          assert (~ (flen - sb s - s_length s <= j < flen - sb s)) by (apply Hno; now left). lia.
  Qed.

  Lemma pack_gen_ok d l : forall start flen, chain start l flen ->
    (forall s, In s l -> exists x, field d s = Ok x) ->
    exists V, pack_items d (gen_items start l flen) = Ok V.
  Proof.
    induction l as [|s r IH]; cbn [chain gen_items]; intros start flen H HF.
    - exists 0. replace (pad_if (flen - start)) with (pad_if (flen - start) ++ []) by apply app_nil_r.
      rewrite pack_pad by lia. reflexivity.
    - destruct H as (H1 & H2 & H3). rewrite pack_pad, pack_data by lia.
      destruct (HF s) as [x Ex]; [now left|]. rewrite Ex. cbn [bind].
      destruct (IH _ _ H3) as [v Ev]; [intros; apply HF; now right|]. rewrite Ev. cbn [bind]. eauto.
  Qed.

  (** Bits of the padding mask. *)
  Lemma mask_gen l : forall start flen, chain start l flen ->
    0 <= padding_mask (gen_items start l flen) < 2 ^ (flen - start) /\
    forall j, 0 <= j < flen - start ->
      (Z.testbit (padding_mask (gen_items start l flen)) j = true <->
       forall s, In s l -> ~ (flen - sb s - s_length s <= j < flen - sb s)).
  Proof.
    induction l as [|s r IH]; cbn [chain gen_items]; intros start flen H.
    - unfold pad_if. destruct (Z.ltb_spec 0 (flen - start)) as [Hp|Hp].
      + cbn [padding_mask items_len]. rewrite Z.pow_0_r, Z.mul_1_r, Z.add_0_r.
        split; [lia|]. intros j Hj. split; [intros _ s []|]. intros _.
        rewrite Z.sub_1_r, <- Z.ones_equiv. apply Z.ones_spec_low. lia.
      + replace (flen - start) with 0 by lia. cbn. split; [lia|]. intros; lia.
    - destruct H as (H1 & H2 & H3). destruct (IH _ _ H3) as [B T].
      assert (Hc := chain_start _ _ _ H3). destruct H2 as [Hl _].
      assert (L := gen_len _ _ _ H3).
      set (M := padding_mask (gen_items (sb s + s_length s) r flen)) in *.
      set (w := flen - (sb s + s_length s)) in *.
      set (p := sb s - start).
      assert (E : padding_mask (pad_if p ++ data_item s :: gen_items (sb s + s_length s) r flen)
                  = (2 ^ p - 1) * 2 ^ (s_length s + w) + M).
      { unfold pad_if. destruct (Z.ltb_spec 0 p) as [Hp|Hp]; cbn [app padding_mask data_item items_len item_len]; rewrite ?L.
        - fold M. lia.
        - fold M. replace p with 0 by lia. cbn. lia. }
      rewrite E.
      assert (MB : 0 <= M < 2 ^ (s_length s + w)).
      { rewrite Z.pow_add_r by lia.
        assert (1 * 2 ^ w <= 2 ^ s_length s * 2 ^ w) by (apply Z.mul_le_mono_nonneg_r; lia). lia. }
      split.
      + replace (flen - start) with (p + (s_length s + w)) by lia.
        rewrite (Z.pow_add_r 2 p) by lia.
        assert (0 <= (2 ^ p - 1) * 2 ^ (s_length s + w)) by (apply Z.mul_nonneg_nonneg; lia). lia.
      + intros j Hj. rewrite testbit_split by lia.
        destruct (Z.ltb_spec j (s_length s + w)) as [C|C].
        * destruct (Z.lt_ge_cases j w) as [C2|C2].
          -- rewrite T by lia. split.
             ++ intros Hno t [<-|Ht]; [lia|]. now apply Hno.
             ++ intros Hno t Ht. apply Hno. now right.
          -- rewrite (testbit_high M w) by lia. split; [discriminate|].
             intros Hno. exfalso. apply (Hno s); [now left|lia].
        * rewrite Z.sub_1_r, <- Z.ones_equiv. rewrite Z.ones_spec_low by lia.
          split; [|reflexivity]. intros _ t [<-|Ht]; [lia|].
          destruct (chain_in _ _ _ _ H3 Ht) as (C1 & C2 & _). lia.
  Qed.

  (** Values read by [unpack_items]. *)
  Definition get_field (flen v : Z) (s : signal) : Z :=
    (v / 2 ^ (flen - sb s - s_length s)) mod 2 ^ s_length s.

  Lemma unpack_gen v l : forall start flen, chain start l flen ->
    unpack_items (gen_items start l flen) (flen - start) v =
    map (fun s => (s_name s, unpack_field (format_kind s) (s_length s) (get_field flen v s))) l.
  Proof.
    induction l as [|s r IH]; cbn [chain gen_items map]; intros start flen H.
    - unfold pad_if. destruct (0 <? flen - start); reflexivity.
    - destruct H as (H1 & H2 & H3).
      assert (E : unpack_items (pad_if (sb s - start) ++ data_item s :: gen_items (sb s + s_length s) r flen)
                    (flen - start) v
                  = unpack_items (data_item s :: gen_items (sb s + s_length s) r flen) (flen - sb s) v).
      { unfold pad_if. destruct (Z.ltb_spec 0 (sb s - start)) as [Hp|Hp]; cbn [app].
        - cbn [unpack_items item_len]. now replace (flen - start - (sb s - start)) with (flen - sb s) by lia.
        - now replace (flen - start) with (flen - sb s) by lia. }
      rewrite E. cbn [unpack_items data_item item_len].
      replace (flen - sb s - s_length s) with (flen - (sb s + s_length s)) by lia.
      rewrite IH by assumption. unfold get_field.
      replace (flen - sb s - s_length s) with (flen - (sb s + s_length s)) by lia. reflexivity.
  Qed.

  Lemma get_field_testbit flen v s k :
    0 <= k < s_length s -> 0 <= flen - sb s - s_length s ->
    Z.testbit (get_field flen v s) k = Z.testbit v (flen - sb s - s_length s + k).
  Proof.
    intros Hk Hp. unfold get_field. rewrite Z.mod_pow2_bits_low by lia.
    rewrite Z.div_pow2_bits by lia. f_equal. lia.
  Qed.

  Lemma get_field_bound flen v s : 0 < s_length s -> 0 <= get_field flen v s < 2 ^ s_length s.
  Proof. intros. apply Z.mod_pos_bound. lia. Qed.

  (** Construction of the chain from sortedness and disjointness. *)
  Lemma chain_of l : forall start flen,
    (forall s, In s l -> kind_ok s /\ start <= sb s /\ sb s + s_length s <= flen) ->
    start <= flen ->
    ForallOrdPairs (fun a b => sb a + s_length a <= sb b) l ->
    chain start l flen.
  Proof.
    induction l as [|s r IH]; cbn [chain]; intros start flen HI Hs HP; [assumption|].
    inversion HP as [|? ? HA HR]; subst. destruct (HI s) as (K & I1 & I2); [now left|].
    split; [assumption|]. split; [assumption|].
    apply IH; [|lia|assumption].
    intros t Ht. destruct (HI t) as (K' & J1 & J2); [now right|].
    split; [assumption|]. rewrite Forall_forall in HA. specialize (HA _ Ht). lia.
  Qed.
End Gen.

(** ** Instances *)
Lemma big_items_gen l : forall start flen, big_items start l flen = gen_items start_bit start l flen.
Proof.
  induction l as [|s r IH]; cbn; intros start flen.
  - unfold pad_if. destruct (Z.ltb_spec start flen), (Z.ltb_spec 0 (flen - start)); try lia; reflexivity.
  - now rewrite IH.
Qed.

(** Offset of a little endian signal from the most significant end of the reversed frame. *)
Definition lsb_off (flen : Z) (s : signal) : Z := flen - (s_start s + s_length s).

Lemma little_items_gen flen l : forall lend,
  little_items lend l =
  gen_items (lsb_off flen) (flen - lend) (filter (fun s => negb (s_big s)) l) flen.
Proof.
  induction l as [|s r IH]; cbn [little_items filter]; intros lend.
  - cbn [gen_items]. f_equal. lia.
  - destruct (s_big s); cbn [negb gen_items]; [apply IH|].
    rewrite IH. unfold lsb_off at 2. f_equal; [f_equal; lia|]. f_equal. f_equal. unfold lsb_off. lia.
Qed.
