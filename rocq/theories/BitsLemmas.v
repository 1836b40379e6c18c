(** BitsLemmas: facts about bytes, integers and bit positions used by all proofs. *)
From Verif Require Import Base PyNum Conversion Signal LayoutSpec.
Ltac Zify.zify_post_hook ::= Z.div_mod_to_equations.

(** ** Sawtooth / network numbering *)
Notation net := sawtooth_to_network.

Lemma net_invol b : net (net b) = b.
Proof. unfold net. lia. Qed.

Lemma net_range n b : 0 <= b < 8 * n <-> 0 <= net b < 8 * n.
Proof. unfold net. lia. Qed.

Lemma net_be_next b : net (be_next b) = net b + 1.
Proof. unfold be_next, net. destruct (b mod 8 =? 0) eqn:E; lia. Qed.

Lemma net_iter j b : net (Nat.iter j be_next b) = net b + Z.of_nat j.
Proof.
  induction j as [|j IH]; cbn [Nat.iter nat_rect]; [lia|].
  change (nat_rect _ _ _ j) with (Nat.iter j be_next b).
  rewrite net_be_next, IH. lia.
Qed.

(** Position of a signal in transmission order: of the MSB for big endian, as in the code. *)
Lemma start_bit_big s : s_big s = true -> start_bit s = net (s_start s).
Proof. unfold start_bit, net. now intros ->. Qed.
Lemma start_bit_little s : s_big s = false -> start_bit s = s_start s.
Proof. unfold start_bit. now intros ->. Qed.

Lemma bit_pos_big s k :
  s_big s = true -> 0 <= k < s_length s ->
  net (bit_pos s k) = start_bit s + (s_length s - 1 - k).
Proof.
  intros Hb Hk. unfold bit_pos. rewrite Hb, net_iter, start_bit_big by assumption. lia.
Qed.

Lemma bit_pos_little s k : s_big s = false -> bit_pos s k = s_start s + k.
Proof. unfold bit_pos. now intros ->. Qed.

Lemma occupies_big s b :
  s_big s = true ->
  (occupies s b <-> start_bit s <= net b < start_bit s + s_length s).
Proof.
  intros Hb. split.
  - intros (k & Hk & <-). rewrite bit_pos_big by assumption. lia.
  - intros H. exists (start_bit s + s_length s - 1 - net b). split; [lia|].
    rewrite <- (net_invol (bit_pos _ _)), bit_pos_big by (assumption || lia).
    rewrite <- (net_invol b) at 2. f_equal. lia.
Qed.

Lemma occupies_little s b :
  s_big s = false ->
  (occupies s b <-> s_start s <= b < s_start s + s_length s).
Proof.
  intros Hb. split.
  - intros (k & Hk & <-). rewrite bit_pos_little by assumption. lia.
  - intros H. exists (b - s_start s). rewrite bit_pos_little by assumption. lia.
Qed.

Lemma bit_pos_inj s k k' :
  0 <= k < s_length s -> 0 <= k' < s_length s -> bit_pos s k = bit_pos s k' -> k = k'.
Proof.
  intros H H' E. destruct (s_big s) eqn:Hb.
  - apply (f_equal net) in E. rewrite !bit_pos_big in E by assumption. lia.
  - rewrite !bit_pos_little in E by assumption. lia.
Qed.

Lemma occupies_pos s k : 0 <= k < s_length s -> occupies s (bit_pos s k).
Proof. intros; exists k; auto. Qed.

(** ** Interval form of fitting *)
Lemma sig_fits_iff n s :
  0 < s_length s ->
  (sig_fits n s <-> 0 <= start_bit s /\ start_bit s + s_length s <= 8 * n).
Proof.
  intros Hl. unfold sig_fits. destruct (s_big s) eqn:Hb.
  - split.
    + intros H.
      assert (H0 := H (net (start_bit s))).
      assert (H1 := H (net (start_bit s + s_length s - 1))).
      rewrite (occupies_big _ _ Hb), net_invol, (net_range n), net_invol in H0.
      rewrite (occupies_big _ _ Hb), net_invol, (net_range n), net_invol in H1. lia.
    + intros [H0 H1] b. rewrite occupies_big, (net_range n) by assumption. lia.
  - rewrite start_bit_little by assumption. split.
    + intros H.
      assert (H0 := H (s_start s)).
      assert (H1 := H (s_start s + s_length s - 1)).
      rewrite (occupies_little _ _ Hb) in H0.
      rewrite (occupies_little _ _ Hb) in H1. lia.
    + intros [H0 H1] b. rewrite occupies_little by assumption. lia.
Qed.

(** ** Bytes *)
Lemma from_le_bound l : bytes_ok l -> 0 <= from_le l < 256 ^ zlen l.
Proof.
  unfold zlen. induction 1 as [|b l Hb Hl IH]; cbn [from_le List.length]; [cbn; lia|].
  rewrite Nat2Z.inj_succ, Z.pow_succ_r by lia. unfold byte_ok in Hb. nia.
Qed.

Lemma bytes_ok_rev l : bytes_ok l -> bytes_ok (rev l).
Proof. apply Forall_rev. Qed.

Lemma from_be_bound l : bytes_ok l -> 0 <= from_be l < 256 ^ zlen l.
Proof.
  intros H. unfold from_be. replace (zlen l) with (zlen (rev l)) by (unfold zlen; now rewrite rev_length).
  now apply from_le_bound, bytes_ok_rev.
Qed.

Lemma pow256 n : 0 <= n -> 256 ^ n = 2 ^ (8 * n).
Proof. intros. rewrite Z.pow_mul_r by lia. reflexivity. Qed.

Lemma byte_testbit_high b i : byte_ok b -> 8 <= i -> Z.testbit b i = false.
Proof.
  intros Hb Hi. destruct (Z.eq_dec b 0) as [->|]; [apply Z.bits_0|].
  apply Z.bits_above_log2; [apply Hb|].
  unfold byte_ok in Hb.
  assert (Z.log2 b < 8) by (apply Z.log2_lt_pow2; lia). lia.
Qed.

Lemma testbit_add_mul256 b r i :
  byte_ok b -> 0 <= i ->
  Z.testbit (b + 256 * r) i = if i <? 8 then Z.testbit b i else Z.testbit r (i - 8).
Proof.
  intros Hb Hi. unfold byte_ok in Hb.
  destruct (Z.ltb_spec i 8) as [H|H].
  - rewrite !Z.testbit_odd, !Z.shiftr_div_pow2 by lia.
    replace (256 * r) with (2 ^ i * (2 ^ (8 - i) * r)) by (rewrite Z.mul_assoc, <- Z.pow_add_r by lia; replace (i + (8 - i)) with 8 by lia; reflexivity).
    rewrite (Z.mul_comm (2 ^ i)), Z.div_add by lia.
    rewrite Z.odd_add. replace (8 - i) with (1 + (7 - i)) by lia.
    rewrite Z.pow_add_r, <- !Z.mul_assoc, Z.odd_mul by lia. cbn. now rewrite xorb_false_r.
  - replace i with ((i - 8) + 8) at 1 by lia.
    rewrite <- Z.shiftr_spec by lia. rewrite Z.shiftr_div_pow2 by lia. f_equal.
    change (2 ^ 8) with 256. lia.
Qed.

Lemma testbit_from_le l b :
  bytes_ok l -> 0 <= b -> Z.testbit (from_le l) b = payload_bit l b.
Proof.
  intros Hl. revert b. induction Hl as [|x l Hx Hl IH]; intros b Hb; cbn [from_le].
  - unfold payload_bit. rewrite Z.bits_0. destruct (Z.to_nat (b / 8)); cbn; now rewrite Z.bits_0.
  - rewrite testbit_add_mul256 by assumption. unfold payload_bit.
    destruct (Z.ltb_spec b 8) as [H|H].
    + replace (b / 8) with 0 by lia. replace (b mod 8) with b by lia. reflexivity.
    + rewrite IH by lia. unfold payload_bit.
      replace (Z.to_nat (b / 8)) with (S (Z.to_nat ((b - 8) / 8))) by lia.
      cbn [nth]. f_equal. lia.
Qed.

Lemma zlen_nonneg {A} (l : list A) : 0 <= zlen l.
Proof. unfold zlen. lia. Qed.

Lemma payload_bit_rev l b :
  0 <= b < 8 * zlen l -> payload_bit (rev l) b = payload_bit l (8 * zlen l - 1 - net b).
Proof.
  intros Hb. unfold payload_bit, zlen in *. rewrite rev_nth by lia. unfold net.
  f_equal; [f_equal|]; lia.
Qed.

Lemma testbit_from_be l b :
  bytes_ok l -> 0 <= b < 8 * zlen l ->
  Z.testbit (from_be l) (8 * zlen l - 1 - net b) = payload_bit l b.
Proof.
  intros Hl Hb. unfold from_be.
  assert (Hr : 0 <= net b < 8 * zlen l) by (apply -> net_range; exact Hb).
  rewrite testbit_from_le; [|now apply bytes_ok_rev|lia].
  rewrite payload_bit_rev by lia. f_equal.
  unfold net. lia.
Qed.

Lemma to_le_length n v : List.length (to_le n v) = n.
Proof. revert v; induction n; intros; cbn; [reflexivity|]. now rewrite IHn. Qed.
Lemma to_be_length n v : List.length (to_be n v) = n.
Proof. unfold to_be. now rewrite rev_length, to_le_length. Qed.

Lemma to_le_ok n v : bytes_ok (to_le n v).
Proof.
  revert v; induction n as [|n IH]; intros v; cbn [to_le]; [constructor|].
  constructor; [unfold byte_ok; lia|apply IH].
Qed.
Lemma to_be_ok n v : bytes_ok (to_be n v).
Proof. apply bytes_ok_rev, to_le_ok. Qed.

Lemma from_le_to_le n v : 0 <= v < 256 ^ Z.of_nat n -> from_le (to_le n v) = v.
Proof.
  revert v; induction n as [|n IH]; intros v Hv.
  - cbn in *. lia.
  - cbn [to_le from_le]. rewrite Nat2Z.inj_succ, Z.pow_succ_r in Hv by lia.
    rewrite IH; [lia|]. split; [lia|]. apply Z.div_lt_upper_bound; lia.
Qed.
Lemma from_be_to_be n v : 0 <= v < 256 ^ Z.of_nat n -> from_be (to_be n v) = v.
Proof. intros. unfold from_be, to_be. rewrite rev_involutive. now apply from_le_to_le. Qed.

Lemma to_le_from_le l : bytes_ok l -> to_le (List.length l) (from_le l) = l.
Proof.
  induction 1 as [|b l Hb Hl IH]; cbn [List.length from_le to_le]; [reflexivity|].
  unfold byte_ok in Hb. f_equal; [lia|].
  replace ((b + 256 * from_le l) / 256) with (from_le l) by lia. assumption.
Qed.
Lemma to_be_from_be l : bytes_ok l -> to_be (List.length l) (from_be l) = l.
Proof.
  intros H. unfold to_be, from_be. rewrite <- (rev_length l).
  rewrite to_le_from_le by now apply bytes_ok_rev. apply rev_involutive.
Qed.

Lemma payload_bit_to_be n v b :
  0 <= v < 256 ^ Z.of_nat n -> 0 <= b < 8 * Z.of_nat n ->
  payload_bit (to_be n v) b = Z.testbit v (8 * Z.of_nat n - 1 - net b).
Proof.
  intros Hv Hb.
  assert (Hlen : zlen (to_be n v) = Z.of_nat n) by (unfold zlen; now rewrite to_be_length).
  rewrite <- testbit_from_be; [|apply to_be_ok|lia].
  rewrite Hlen, from_be_to_be by assumption. reflexivity.
Qed.

(** Two payloads of equal length with the same bits are equal. *)
Lemma payload_ext l l' :
  bytes_ok l -> bytes_ok l' -> List.length l = List.length l' ->
  (forall b, 0 <= b < 8 * zlen l -> payload_bit l b = payload_bit l' b) -> l = l'.
Proof.
  intros Hl Hl' Hlen Hbit.
  rewrite <- (to_le_from_le l Hl), <- (to_le_from_le l' Hl'), <- Hlen. f_equal.
  apply Z.bits_inj'. intros i Hi.
  destruct (Z.lt_ge_cases i (8 * zlen l)) as [H|H].
  - rewrite !testbit_from_le by assumption. apply Hbit. lia.
  - assert (Hb := from_le_bound l Hl). assert (Hb' := from_le_bound l' Hl').
    rewrite pow256 in Hb, Hb' by apply zlen_nonneg.
    assert (zlen l' = zlen l) by (unfold zlen; lia).
    assert (forall x, 0 <= x < 2 ^ (8 * zlen l) -> Z.testbit x i = false) as Hz.
    { intros x Hx. destruct (Z.eq_dec x 0) as [->|]; [apply Z.bits_0|].
      apply Z.bits_above_log2; [lia|].
      assert (Z.log2 x < 8 * zlen l) by (apply Z.log2_lt_pow2; lia). lia. }
    rewrite !Hz; try reflexivity; [|lia]. rewrite H0 in Hb'. lia.
Qed.

(** ** Integers and their digits *)
Lemma testbit_high x n i : 0 <= x < 2 ^ n -> n <= i -> Z.testbit x i = false.
Proof.
  intros Hx Hi. destruct (Z.eq_dec x 0) as [->|]; [apply Z.bits_0|].
  apply Z.bits_above_log2; [lia|].
  assert (Z.log2 x < n) by (apply Z.log2_lt_pow2; lia). lia.
Qed.

Lemma testbit_bound x n :
  0 <= n -> (forall i, n <= i -> Z.testbit x i = false) -> 0 <= x < 2 ^ n.
Proof.
  intros Hn H.
  assert (E : x = x mod 2 ^ n).
  { apply Z.bits_inj'. intros i Hi.
    destruct (Z.lt_ge_cases i n).
    - now rewrite Z.mod_pow2_bits_low.
    - rewrite Z.mod_pow2_bits_high by lia. now apply H. }
  rewrite E. apply Z.mod_pos_bound. lia.
Qed.

Lemma testbit_split f v n i :
  0 <= n -> 0 <= v < 2 ^ n -> 0 <= i ->
  Z.testbit (f * 2 ^ n + v) i = if i <? n then Z.testbit v i else Z.testbit f (i - n).
Proof.
  intros Hn Hv Hi. destruct (Z.ltb_spec i n) as [H|H].
  - rewrite <- (Z.mod_pow2_bits_low (f * 2 ^ n + v) n) by assumption.
    f_equal. rewrite Z.add_comm, Z.mod_add by lia. now apply Z.mod_small.
  - replace i with ((i - n) + n) at 1 by lia.
    rewrite <- Z.div_pow2_bits by lia. f_equal.
    rewrite Z.div_add_l by lia. rewrite Z.div_small by assumption. lia.
Qed.

Lemma digits_bound f n : 0 <= digits f n < 2 ^ Z.of_nat n.
Proof.
  induction n as [|n IH]; cbn [digits]; [cbn; lia|].
  rewrite Nat2Z.inj_succ, Z.pow_succ_r by lia. destruct (f _); lia.
Qed.

Lemma digits_testbit f n i :
  0 <= i -> Z.testbit (digits f n) i = if i <? Z.of_nat n then f i else false.
Proof.
  intros Hi. induction n as [|n IH]; cbn [digits].
  - rewrite Z.bits_0. destruct (Z.ltb_spec i (Z.of_nat 0)); [lia|reflexivity].
  - assert (Hd := digits_bound f n).
    replace (digits f n + (if f (Z.of_nat n) then 2 ^ Z.of_nat n else 0))
      with ((if f (Z.of_nat n) then 1 else 0) * 2 ^ Z.of_nat n + digits f n)
      by (destruct (f (Z.of_nat n)); lia).
    rewrite testbit_split by lia. rewrite IH.
    destruct (Z.ltb_spec i (Z.of_nat n)), (Z.ltb_spec i (Z.of_nat (S n))); try lia; try reflexivity.
    + replace i with (Z.of_nat n) by lia. replace (Z.of_nat n - Z.of_nat n) with 0 by lia.
      destruct (f (Z.of_nat n)); reflexivity.
    + destruct (f (Z.of_nat n)); [|apply Z.bits_0].
      apply (testbit_high 1 1); [cbn; lia|lia].
Qed.

Lemma digits_unique f n x :
  0 <= x < 2 ^ Z.of_nat n ->
  (forall i, 0 <= i < Z.of_nat n -> Z.testbit x i = f i) -> digits f n = x.
Proof.
  intros Hx H. apply Z.bits_inj'. intros i Hi. rewrite digits_testbit by assumption.
  destruct (Z.ltb_spec i (Z.of_nat n)); [symmetry; apply H; lia|].
  symmetry. eapply testbit_high; eauto.
Qed.

Lemma digits_ext f g n :
  (forall i, 0 <= i < Z.of_nat n -> f i = g i) -> digits f n = digits g n.
Proof.
  intros H. apply digits_unique; [apply digits_bound|].
  intros i Hi. rewrite digits_testbit by lia. destruct (Z.ltb_spec i (Z.of_nat n)); [|lia].
  symmetry; apply H; lia.
Qed.

Lemma mod_pow2_testbit z n i : 0 <= i < n -> Z.testbit (z mod 2 ^ n) i = Z.testbit z i.
Proof. intros. now rewrite Z.mod_pow2_bits_low by lia. Qed.

(** Two's complement: reading back [z mod 2^n] with the sign rule gives [z]. *)
Lemma twos_complement z n :
  0 < n -> - 2 ^ (n - 1) <= z < 2 ^ (n - 1) ->
  (if z mod 2 ^ n <? 2 ^ (n - 1) then z mod 2 ^ n else z mod 2 ^ n - 2 ^ n) = z.
Proof.
  intros Hn Hz.
  assert (E : 2 ^ n = 2 * 2 ^ (n - 1)) by (rewrite <- Z.pow_succ_r by lia; f_equal; lia).
  assert (0 < 2 ^ (n - 1)) by lia.
  destruct (Z.lt_ge_cases z 0) as [H0|H0].
  - assert (E2 : z mod 2 ^ n = z + 2 ^ n).
    { rewrite <- (Z.mod_add z 1), Z.mul_1_l by lia. apply Z.mod_small. lia. }
    rewrite E2. destruct (Z.ltb_spec (z + 2 ^ n) (2 ^ (n - 1))); lia.
  - rewrite Z.mod_small by lia. destruct (Z.ltb_spec z (2 ^ (n - 1))); lia.
Qed.

Lemma top_bit x n : 0 < n -> 0 <= x < 2 ^ n -> (x <? 2 ^ (n - 1)) = negb (Z.testbit x (n - 1)).
Proof.
  intros Hn Hx.
  assert (E : 2 ^ n = 2 * 2 ^ (n - 1)) by (rewrite <- Z.pow_succ_r by lia; f_equal; lia).
  rewrite Z.testbit_odd, Z.shiftr_div_pow2 by lia.
  destruct (Z.ltb_spec x (2 ^ (n - 1))) as [H|H].
  - rewrite Z.div_small by lia. reflexivity.
  - replace (x / 2 ^ (n - 1)) with 1; [reflexivity|].
    apply Z.div_unique with (x - 2 ^ (n - 1)); lia.
Qed.
