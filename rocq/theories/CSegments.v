(** CSegments: the segments of a signal in the generated C code cover exactly its bits. *)
From Verif Require Import Base PyNum Conversion Signal Formats Message LayoutSpec CodecSpec BitsLemmas CSource.

Lemma mask_bit a b j : 0 <= a -> 0 <= b -> 0 <= j -> Z.testbit ((2 ^ a - 1) * 2 ^ b) j = (b <=? j) && (j <? a + b).
Proof.
  intros Ha Hb Hj. rewrite Z.mul_pow2_bits by lia. replace (2 ^ a - 1) with (Z.ones a) by (rewrite Z.ones_equiv; lia).
  destruct (Z.leb_spec b j); cbn [andb].
  - destruct (Z.ltb_spec j (a + b)); [apply Z.ones_spec_low; lia|apply Z.ones_spec_high; lia].
  - apply Z.testbit_neg_r. lia.
Qed.
Lemma mask_bit0 a j : 0 <= a -> 0 <= j -> Z.testbit (2 ^ a - 1) j = (j <? a).
Proof.
  intros. pose proof (mask_bit a 0 j) as M. rewrite Z.mul_1_r in M. rewrite M by lia.
  destruct (Z.leb_spec 0 j); [|lia]. now rewrite Z.add_0_r.
Qed.

Lemma mask_bound a b : 0 <= a -> 0 <= b -> a + b <= 8 -> 0 <= (2 ^ a - 1) * 2 ^ b < 256.
Proof.
  intros. change 256 with (2 ^ 8). apply testbit_bound; [lia|]. intros i Hi. rewrite mask_bit by lia.
  destruct (Z.ltb_spec i (a + b)); [lia|]. apply andb_false_r.
Qed.

Lemma net_byte i j : 0 <= j < 8 -> net (8 * i + (7 - j)) = 8 * i + j.
Proof. intros H. unfold net. Z.div_mod_to_equations. lia. Qed.

(** One segment and the bits it covers, among the bits [lo <= k < hi] *)
Definition seg_sound (s : signal) (lo hi : Z) (g : Z * Z * Z) : Prop :=
  let '(i, sh, mk) := g in
  0 <= i /\ 0 <= mk < 256 /\ - s_length s < sh <= 7 /\ (exists j, 0 <= j < 8 /\ Z.testbit mk j = true) /\
  forall j, 0 <= j < 8 -> Z.testbit mk j = true -> lo <= j - sh < hi /\ bit_pos s (j - sh) = 8 * i + j.
Lemma seg_weaken s lo hi lo' hi' g : lo' <= lo -> hi <= hi' -> seg_sound s lo hi g -> seg_sound s lo' hi' g.
Proof.
  destruct g as [[i sh] mk]. intros L H (A1 & A2 & A3 & A5 & A4). split; [exact A1|]. split; [exact A2|]. split; [exact A3|]. split; [exact A5|].
  intros j Hj T. destruct (A4 j Hj T). split; [lia|assumption].
Qed.
Definition covers (s : signal) (l : list (Z * Z * Z)) (k : Z) : Prop :=
  exists i sh mk, In (i, sh, mk) l /\ 0 <= k + sh < 8 /\ Z.testbit mk (k + sh) = true.

Lemma seg_big s fuel : forall index pos left,
  s_big s = true -> 0 <= pos < 8 -> 0 <= left <= s_length s -> left <= Z.of_nat fuel -> 0 <= index ->
  (forall k, 0 <= k < left -> net (bit_pos s k) = 8 * index + (7 - pos) + (left - 1 - k)) ->
  let l := seg_loop fuel true (s_length s) index pos left in
  Forall (seg_sound s 0 left) l /\ forall k, 0 <= k < left -> covers s l k.
Proof.
  induction fuel as [|f IH]; intros index pos left Hb Hp Hl Hf Hi HP; cbv zeta; cbn [seg_loop].
  { split; [constructor|]. intros; lia. }
  destruct (Z.ltb_spec 0 left) as [Hle|Hle]; [|split; [constructor|intros; lia]].
  destruct (Z.leb_spec (pos + 1) left) as [Hc|Hc].
  - destruct (IH (index + 1) 7 (left - (pos + 1))) as [IH1 IH2]; auto; try lia; try (intros k Hk; rewrite HP by lia; lia).
    split.
    + constructor.
      * unfold seg_sound. split; [lia|]. pose proof (mask_bound (pos + 1) 0) as MB. rewrite Z.mul_1_r in MB. split; [apply MB; lia|]. split; [lia|].
        split; [exists 0; rewrite mask_bit0 by lia; lia|].
        intros j Hj T. rewrite mask_bit0 in T by lia.
        assert (0 <= j - - (left - (pos + 1)) < left) by lia. split; [assumption|].
        rewrite <- (net_invol (bit_pos _ _)), HP by assumption. rewrite <- (net_byte index j) by assumption. f_equal. lia.
      * eapply Forall_impl; [|exact IH1]. intros g. apply seg_weaken; lia.
    + intros k Hk. destruct (Z.lt_ge_cases k (left - (pos + 1))) as [H|H].
      * destruct (IH2 k) as (i & sh & mk & HI & R); [lia|]. exists i, sh, mk. split; [now right|exact R].
      * exists index, (- (left - (pos + 1))), (2 ^ (pos + 1) - 1). split; [now left|]. split; [lia|]. rewrite mask_bit0 by lia. lia.
  - destruct (IH (index + 1) pos (left - left)) as [IH1 _]; auto; try lia; try (intros; lia). split.
    + constructor.
      * unfold seg_sound. split; [lia|]. split; [apply mask_bound; lia|]. split; [lia|]. split; [exists pos; rewrite mask_bit by lia; lia|]. intros j Hj T. rewrite mask_bit in T by lia.
        assert (0 <= j - (pos - left + 1) < left) by lia. split; [assumption|].
        rewrite <- (net_invol (bit_pos _ _)), HP by assumption. rewrite <- (net_byte index j) by assumption. f_equal. lia.
      * eapply Forall_impl; [|exact IH1]. intros g. apply seg_weaken; lia.
    + intros k Hk. exists index, (pos - left + 1), ((2 ^ left - 1) * 2 ^ (pos - left + 1)). split; [now left|].
      split; [lia|]. rewrite mask_bit by lia. lia.
Qed.

Lemma seg_little s fuel : forall index pos left,
  s_big s = false -> 0 <= pos < 8 -> 0 <= left <= s_length s -> left <= Z.of_nat fuel -> 0 <= index ->
  (forall k, s_length s - left <= k < s_length s -> bit_pos s k = 8 * index + pos + (k - (s_length s - left))) ->
  let l := seg_loop fuel false (s_length s) index pos left in
  Forall (seg_sound s (s_length s - left) (s_length s)) l /\ forall k, s_length s - left <= k < s_length s -> covers s l k.
Proof.
  induction fuel as [|f IH]; intros index pos left Hb Hp Hl Hf Hi HP; cbv zeta; cbn [seg_loop].
  { split; [constructor|]. intros; lia. }
  destruct (Z.ltb_spec 0 left) as [Hle|Hle]; [|split; [constructor|intros; lia]].
  destruct (Z.leb_spec (8 - pos) left) as [Hc|Hc].
  - destruct (IH (index + 1) 0 (left - (8 - pos))) as [IH1 IH2]; auto; try lia; try (intros k Hk; rewrite HP by lia; lia).
    split.
    + constructor.
      * unfold seg_sound. split; [lia|]. split; [apply mask_bound; lia|]. split; [lia|]. split; [exists pos; rewrite mask_bit by lia; lia|]. intros j Hj T. rewrite mask_bit in T by lia.
        assert (s_length s - left <= j - (left - s_length s + pos) < s_length s) by lia. split; [assumption|].
        rewrite HP by assumption. lia.
      * eapply Forall_impl; [|exact IH1]. intros g. apply seg_weaken; lia.
    + intros k Hk. destruct (Z.lt_ge_cases k (s_length s - (left - (8 - pos)))) as [H|H].
      * exists index, (left - s_length s + pos), ((2 ^ (8 - pos) - 1) * 2 ^ pos). split; [now left|]. split; [lia|]. rewrite mask_bit by lia. lia.
      * destruct (IH2 k) as (i & sh & mk & HI & R); [lia|]. exists i, sh, mk. split; [now right|exact R].
  - destruct (IH (index + 1) pos (left - left)) as [IH1 _]; auto; try lia; try (intros; lia). split.
    + constructor.
      * unfold seg_sound. split; [lia|]. split; [apply mask_bound; lia|]. split; [lia|]. split; [exists pos; rewrite mask_bit by lia; lia|]. intros j Hj T. rewrite mask_bit in T by lia.
        assert (s_length s - left <= j - (left - s_length s + pos) < s_length s) by lia. split; [assumption|].
        rewrite HP by assumption. lia.
      * eapply Forall_impl; [|exact IH1]. intros g. apply seg_weaken; lia.
    + intros k Hk. exists index, (left - s_length s + pos), ((2 ^ left - 1) * 2 ^ pos). split; [now left|].
      split; [lia|]. rewrite mask_bit by lia. lia.
Qed.

Theorem segments_spec s : 0 <= s_start s -> 0 < s_length s ->
  Forall (seg_sound s 0 (s_length s)) (raw_segments s) /\ forall k, 0 <= k < s_length s -> covers s (raw_segments s) k.
Proof.
  intros Hs Hl. unfold raw_segments. pose proof (Z.mod_pos_bound (s_start s) 8). pose proof (Z.div_pos (s_start s) 8).
  destruct (s_big s) eqn:B.
  - apply seg_big; auto; try lia. intros k Hk. rewrite bit_pos_big, start_bit_big by auto. unfold net. lia.
  - destruct (seg_little s (Z.to_nat (s_length s)) (s_start s / 8) (s_start s mod 8) (s_length s)) as [S1 S2]; auto; try lia.
    + intros k Hk. rewrite bit_pos_little by auto. pose proof (Z.div_mod (s_start s) 8). lia.
    + rewrite Z.sub_diag in *. auto.
Qed.
