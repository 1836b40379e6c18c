(** Prop_SecOC: property C32 of AUTOSAR secure on-board communication. *)
From Verif Require Import Base PyNum Bitstruct J1939 Autosar LayoutSpec DictLemmas BitsLemmas NodeProofs.
Ltac Zify.zify_post_hook ::= Z.div_mod_to_equations.

(** Bit [i] of a byte string in transmission order (bit 0: most significant bit of byte 0). *)
Definition tx_bit (data : list Z) (i : Z) : bool :=
  Z.testbit (nth (Z.to_nat (i / 8)) data 0) (7 - i mod 8).

Lemma zrange_nth a n i : 0 <= i < n -> nth (Z.to_nat i) (zrange a (a + n)) 0 = a + i.
Proof.
  unfold zrange. replace (a + n - a) with n by lia. intros H.
  assert (G : forall k a i, (i < k)%nat -> nth i (zrange_from a k) 0 = a + Z.of_nat i).
  { induction k as [|k IH]; intros b j Hj; [lia|]. destruct j; cbn [nth zrange_from]; [lia|]. rewrite IH by lia. lia. }
  rewrite G by lia. lia.
Qed.
Lemma zrange_length a b : List.length (zrange a b) = Z.to_nat (b - a).
Proof.
  unfold zrange. generalize (Z.to_nat (b - a)). intros k. revert a. induction k; intros a0; cbn; [reflexivity|]. now rewrite IHk.
Qed.

Lemma nth_firstn {A} (d : A) n l i : (i < n)%nat -> nth i (firstn n l) d = nth i l d.
Proof.
  revert n l. induction i as [|i IH]; intros [|n] [|x l] H; cbn; try lia; try reflexivity. apply IH. lia.
Qed.
Lemma nth_skipn {A} (d : A) n l i : nth i (skipn n l) d = nth (n + i) l d.
Proof. revert l. induction n as [|n IH]; intros [|x l]; cbn; try reflexivity. { destruct i; reflexivity. } apply IH. Qed.

Lemma bits_length data : List.length (bits_of data) = (8 * List.length data)%nat.
Proof. induction data as [|b l IH]; [reflexivity|]. unfold bits_of in *. cbn [flat_map]. rewrite app_length, IH. cbn [List.length]. rewrite map_length, zrange_length. lia. Qed.
Lemma bits_nth data i : 0 <= i < 8 * zlen data -> nth (Z.to_nat i) (bits_of data) false = tx_bit data i.
Proof.
  unfold zlen, tx_bit. revert i. induction data as [|b l IH]; intros i Hi; [cbn in Hi; lia|].
  unfold bits_of in *. cbn [flat_map]. cbn [List.length] in Hi. destruct (Z.lt_ge_cases i 8).
  - rewrite app_nth1 by (rewrite map_length, zrange_length; lia).
    replace (Z.to_nat (i / 8)) with O by lia. cbn [nth].
    rewrite (nth_indep _ false (Z.testbit b (7 - 0))) by (rewrite map_length, zrange_length; lia).
    rewrite (map_nth (fun i => Z.testbit b (7 - i))). change (zrange 0 8) with (zrange 0 (0 + 8)). rewrite zrange_nth by lia.
    f_equal. lia.
  - rewrite app_nth2 by (rewrite map_length, zrange_length; lia). rewrite map_length, zrange_length.
    replace (Z.to_nat i - Z.to_nat (8 - 0))%nat with (Z.to_nat (i - 8)) by lia. rewrite IH by lia.
    replace (Z.to_nat (i / 8)) with (S (Z.to_nat ((i - 8) / 8))) by lia. cbn [nth]. f_equal. lia.
Qed.

Lemma byte_of_spec f : 0 <= byte_of f < 256 /\ forall i, (i < 8)%nat -> Z.testbit (byte_of f) (7 - Z.of_nat i) = f i.
Proof.
  unfold byte_of. cbn [seq fold_left].
  split.
  - destruct (f 0%nat), (f 1%nat), (f 2%nat), (f 3%nat), (f 4%nat), (f 5%nat), (f 6%nat), (f 7%nat); cbn; lia.
  - intros i Hi. do 8 (destruct i as [|i]; [destruct (f 0%nat), (f 1%nat), (f 2%nat), (f 3%nat), (f 4%nat), (f 5%nat), (f 6%nat), (f 7%nat); reflexivity|]).
    lia.
Qed.

Lemma bytes_of_ok l : bytes_ok (bytes_of l).
Proof. unfold bytes_of, bytes_ok. rewrite Forall_map, Forall_forall. intros j _. apply byte_of_spec. Qed.
Lemma bytes_of_length l n : List.length l = (8 * n)%nat -> List.length (bytes_of l) = n.
Proof. intros H. unfold bytes_of. rewrite map_length, seq_length, H. lia. Qed.
Lemma bytes_of_bit l n i : List.length l = (8 * n)%nat -> 0 <= i < 8 * Z.of_nat n ->
  tx_bit (bytes_of l) i = nth (Z.to_nat i) l false.
Proof.
  intros H Hi. unfold tx_bit, bytes_of. rewrite H.
  replace (Nat.div (8 * n + 7) 8) with n by lia.
  set (g := fun j => byte_of (fun k => nth (8 * j + k) l false)).
  rewrite (nth_indep _ 0 (g O)) by (rewrite map_length, seq_length; lia). rewrite map_nth, seq_nth by lia. cbn [Nat.add].
  unfold g. replace (7 - i mod 8) with (7 - Z.of_nat (Z.to_nat (i mod 8))) by lia.
  rewrite (proj2 (byte_of_spec _)) by lia. f_equal. lia.
Qed.

(** Byte strings of the same length with the same bits are equal. *)
Lemma tx_ext a b : bytes_ok a -> bytes_ok b -> zlen a = zlen b -> (forall i, 0 <= i < 8 * zlen a -> tx_bit a i = tx_bit b i) -> a = b.
Proof.
  intros A B L H. apply payload_ext; auto. { unfold zlen in *. lia. }
  intros i Hi. specialize (H (net i)). unfold tx_bit, net in H. unfold payload_bit.
  replace ((8 * (i / 8) + (7 - i mod 8)) / 8) with (i / 8) in H by lia.
  replace (7 - (8 * (i / 8) + (7 - i mod 8)) mod 8) with (i mod 8) in H by lia. apply H. lia.
Qed.

(** ** The specification *)

(** The data handed to the authenticator: 16 bits of data id, the payload (zero filled or cut to its
    configured length), the freshness value, and zeros up to the next byte boundary. *)
Definition secured_bit (s : secoc) (payload : list Z) (fresh : Z) (i : Z) : bool :=
  if i <? 16 then Z.testbit (so_data_id s) (15 - i)
  else if i <? 16 + 8 * so_payload s then tx_bit payload (i - 16)
  else if i <? 16 + 8 * so_payload s + so_fresh s
  then Z.testbit fresh (16 + 8 * so_payload s + so_fresh s - 1 - i)
  else false.
Definition is_secured (s : secoc) (payload : list Z) (fresh : Z) (d : list Z) : Prop :=
  bytes_ok d /\ 8 * zlen d = 8 * ((16 + 8 * so_payload s + so_fresh s + 7) / 8) /\
  forall i, 0 <= i < 8 * zlen d -> tx_bit d i = secured_bit s payload fresh i.

(** Where the trailer is, and what belongs there. *)
Definition in_trailer (s : secoc) (i : Z) : Prop :=
  8 * so_payload s <= i < 8 * so_payload s + so_fresh_tx s + so_auth_tx s.
Definition trailer_bit (s : secoc) (auth : list Z) (fresh i : Z) : bool :=
  let j := i - 8 * so_payload s in
  if j <? so_fresh_tx s then Z.testbit fresh (so_fresh_tx s - 1 - j) else tx_bit auth (j - so_fresh_tx s).

(** Usable settings: every part has a size, and the trailer fits into the frame. *)
Definition secoc_ok (s : secoc) (payload : list Z) (fresh : Z) : Prop :=
  0 <= so_data_id s < 2 ^ 16 /\ 0 < so_payload s /\ 0 < so_fresh s /\ 0 < so_fresh_tx s /\ 0 < so_auth_tx s /\
  0 <= fresh < 2 ^ so_fresh s /\
  8 * so_payload s + so_fresh_tx s + so_auth_tx s <= 8 * zlen payload.

(** ** Bit strings *)

Lemma u_bits_ok w v : 0 < w -> 0 <= v < 2 ^ w -> exists l, u_bits w v = Ok l /\ List.length l = Z.to_nat w /\
  forall i, 0 <= i < w -> nth (Z.to_nat i) l false = Z.testbit v (w - 1 - i).
Proof.
  intros Hw Hv. unfold u_bits. rewrite (proj2 (Z.leb_gt w 0)) by lia. unfold pack_field.
  rewrite (proj2 (Z.leb_le 0 v)), (proj2 (Z.ltb_lt v (2 ^ w))) by lia. cbn [andb bind].
  eexists. split; [reflexivity|]. split. { rewrite map_length, zrange_length. lia. }
  intros i Hi. rewrite (nth_indep _ false (Z.testbit v (w - 1 - 0))) by (rewrite map_length, zrange_length; lia).
  rewrite (map_nth (fun i => Z.testbit v (w - 1 - i))). replace (zrange 0 w) with (zrange 0 (0 + w)) by (f_equal; lia).
  rewrite zrange_nth by lia. reflexivity.
Qed.
Lemma u_bits_inv w v l : u_bits w v = Ok l -> 0 < w /\ 0 <= v < 2 ^ w.
Proof.
  unfold u_bits. destruct (Z.leb_spec w 0); [discriminate|]. unfold pack_field.
  destruct (Z.leb_spec 0 v); [|discriminate]. destruct (Z.ltb_spec v (2 ^ w)); [|discriminate]. lia.
Qed.
Lemma tx_bit_beyond d i : 8 * zlen d <= i -> tx_bit d i = false.
Proof. intros H. unfold tx_bit, zlen in *. rewrite nth_overflow by lia. apply Z.bits_0. Qed.
Lemma r_bits_ok w d : 0 < w -> exists l, r_bits w d = Ok l /\ List.length l = Z.to_nat w /\
  forall i, 0 <= i < w -> nth (Z.to_nat i) l false = tx_bit d i.
Proof.
  intros Hw. unfold r_bits. rewrite (proj2 (Z.leb_gt w 0)) by lia. eexists. split; [reflexivity|].
  split. { rewrite firstn_length, app_length, repeat_length. lia. }
  intros i Hi. rewrite nth_firstn by lia.
  destruct (Z.lt_ge_cases i (8 * zlen d)).
  - rewrite app_nth1 by (rewrite bits_length; unfold zlen in *; lia). apply bits_nth. lia.
  - rewrite app_nth2 by (rewrite bits_length; unfold zlen in *; lia). rewrite tx_bit_beyond by lia.
    apply nth_repeat.
Qed.

Lemma bytes_of_bits l i : 0 <= i -> tx_bit (bytes_of l) i = nth (Z.to_nat i) l false.
Proof.
  intros Hi. destruct (Z.lt_ge_cases (i / 8) (Z.of_nat (Nat.div (List.length l + 7) 8))).
  - unfold tx_bit, bytes_of.
    set (g := fun j => byte_of (fun k => nth (8 * j + k) l false)).
    rewrite (nth_indep _ 0 (g O)) by (rewrite map_length, seq_length; lia). rewrite map_nth, seq_nth by lia. cbn [Nat.add].
    unfold g. replace (7 - i mod 8) with (7 - Z.of_nat (Z.to_nat (i mod 8))) by lia.
    rewrite (proj2 (byte_of_spec _)) by lia. f_equal. lia.
  - rewrite tx_bit_beyond; [|unfold zlen, bytes_of; rewrite map_length, seq_length; lia].
    rewrite nth_overflow; [reflexivity|lia].
Qed.

(** ** What is authenticated *)

Lemma py_slice_bit n d i : 0 <= n -> 0 <= i < 8 * n -> tx_bit (py_slice 0 n d) i = tx_bit d i.
Proof.
  intros Hn Hi. unfold py_slice, slice, tx_bit. rewrite (proj2 (Z.ltb_ge n 0)) by lia.
  cbn [Z.to_nat skipn]. rewrite Z.sub_0_r. f_equal. rewrite nth_firstn by lia. reflexivity.
Qed.

Lemma auth_data_ok s p fresh : secoc_ok s p fresh -> exists d, auth_data s p fresh = Ok d /\ is_secured s p fresh d.
Proof.
  intros (Hd & Hp & Hf & Hft & Ha & Hv & Hfit). unfold auth_data.
  destruct (u_bits_ok 16 (so_data_id s)) as (a & -> & La & Ba); [lia..|]. cbn [bind].
  destruct (r_bits_ok (so_payload s * 8) (py_slice 0 (so_payload s) p)) as (b & -> & Lb & Bb); [lia|]. cbn [bind].
  destruct (u_bits_ok (so_fresh s) fresh) as (c & -> & Lc & Bc); [lia..|]. cbn [bind].
  eexists. split; [reflexivity|]. split; [apply bytes_of_ok|].
  assert (L : List.length (a ++ b ++ c) = Z.to_nat (16 + 8 * so_payload s + so_fresh s)) by (rewrite !app_length; lia).
  split. { unfold zlen, bytes_of. rewrite map_length, seq_length, L. lia. }
  intros i Hi. rewrite bytes_of_bits by lia. unfold secured_bit.
  destruct (Z.ltb_spec i 16). { rewrite app_nth1 by lia. rewrite Ba by lia. f_equal; lia. }
  rewrite app_nth2 by lia.
  destruct (Z.ltb_spec i (16 + 8 * so_payload s)).
  { rewrite app_nth1 by lia. replace (Z.to_nat i - List.length a)%nat with (Z.to_nat (i - 16)) by lia. rewrite Bb by lia.
    apply py_slice_bit; lia. }
  rewrite app_nth2 by lia.
  destruct (Z.ltb_spec i (16 + 8 * so_payload s + so_fresh s)).
  - replace (Z.to_nat i - List.length a - List.length b)%nat with (Z.to_nat (i - 16 - 8 * so_payload s)) by lia.
    rewrite Bc by lia. f_equal. lia.
  - apply nth_overflow. lia.
Qed.

(** The authenticated data depend only on the protected bits of the payload. *)
Lemma is_secured_unique s p q fresh d e :
  0 < so_payload s -> 0 < so_fresh s -> (forall i, 0 <= i < 8 * so_payload s -> tx_bit p i = tx_bit q i) ->
  is_secured s p fresh d -> is_secured s q fresh e -> d = e.
Proof.
  intros Hp Hf Hpq (Bd & Ld & Hd) (Be & Le & He). apply tx_ext; auto; [lia|].
  intros i Hi. rewrite Hd, He by lia. unfold secured_bit.
  destruct (Z.ltb_spec i 16); [reflexivity|].
  destruct (Z.ltb_spec i (16 + 8 * so_payload s)); [|reflexivity].
  apply Hpq; lia.
Qed.

(** ** C32 *)

Lemma pack_into_spec bits off buf :
  0 <= off -> bytes_ok buf -> off + zlen bits <= 8 * zlen buf ->
  exists q, pack_into bits off buf = Ok q /\ bytes_ok q /\ zlen q = zlen buf /\
    forall i, 0 <= i < 8 * zlen buf ->
      tx_bit q i = if (off <=? i) && (i <? off + zlen bits) then nth (Z.to_nat (i - off)) bits false else tx_bit buf i.
Proof.
  intros Ho Hb Hfit. unfold pack_into. unfold zlen in *. rewrite bits_length.
  rewrite (proj2 (Nat.ltb_ge _ _)) by lia. eexists. split; [reflexivity|]. split; [apply bytes_of_ok|].
  set (n := (Z.to_nat off + List.length bits)%nat).
  assert (L : List.length (firstn (Z.to_nat off) (bits_of buf) ++ bits ++ skipn n (bits_of buf)) = (8 * List.length buf)%nat).
  { rewrite !app_length, firstn_length, skipn_length, bits_length. unfold n. lia. }
  split. { rewrite (bytes_of_length _ _ L). reflexivity. }
  intros i Hi. rewrite bytes_of_bits by lia.
  assert (F : List.length (firstn (Z.to_nat off) (bits_of buf)) = Z.to_nat off) by (rewrite firstn_length, bits_length; lia).
  destruct (Z.leb_spec off i); cbn [andb].
  - rewrite app_nth2 by lia. rewrite F.
    destruct (Z.ltb_spec i (off + Z.of_nat (List.length bits))).
    + rewrite app_nth1 by lia. f_equal. lia.
    + rewrite app_nth2 by lia. rewrite nth_skipn. rewrite <- bits_nth by (unfold zlen; lia). f_equal. unfold n. lia.
  - rewrite app_nth1 by lia. rewrite nth_firstn by lia. apply bits_nth. unfold zlen; lia.
Qed.

(** Applying the authenticator: the length stays, the bits outside the trailer stay, and the trailer holds the
    low bits of the freshness value followed by the first bits of the authenticator of the secured data. *)
Theorem C32_apply s f p fresh :
  bytes_ok p -> secoc_ok s p fresh ->
  exists d q, is_secured s p fresh d /\ apply_authenticator s f p fresh = Ok q /\
    bytes_ok q /\ zlen q = zlen p /\
    (forall i, 0 <= i < 8 * zlen p -> ~ in_trailer s i -> tx_bit q i = tx_bit p i) /\
    (forall i, in_trailer s i -> tx_bit q i = trailer_bit s (f d fresh) fresh i).
Proof.
  intros Hb Hok. destruct (auth_data_ok _ _ _ Hok) as (d & Ed & Sd).
  destruct Hok as (Hd & Hp & Hf & Hft & Ha & Hv & Hfit).
  unfold apply_authenticator, compute_authenticator. rewrite Ed. cbn [bind].
  assert (M : Z.land fresh (Z.shiftl 1 (so_fresh_tx s) - 1) = fresh mod 2 ^ so_fresh_tx s).
  { rewrite Z.shiftl_1_l, Z.sub_1_r, <- Z.ones_equiv, Z.land_ones by lia. reflexivity. }
  rewrite M. assert (0 < 2 ^ so_fresh_tx s) by (apply Z.pow_pos_nonneg; lia).
  destruct (u_bits_ok (so_fresh_tx s) (fresh mod 2 ^ so_fresh_tx s)) as (a & -> & La & Ba); [lia|apply Z.mod_pos_bound; lia|].
  cbn [bind]. destruct (r_bits_ok (so_auth_tx s) (f d fresh)) as (b & -> & Lb & Bb); [lia|]. cbn [bind].
  assert (Lab : zlen (a ++ b) = so_fresh_tx s + so_auth_tx s) by (unfold zlen; rewrite app_length; lia).
  destruct (pack_into_spec (a ++ b) (so_payload s * 8) p) as (q & -> & Bq & Lq & Hq); [lia|exact Hb|lia|].
  exists d, q. split; [exact Sd|]. split; [reflexivity|]. split; [exact Bq|]. split; [exact Lq|]. split.
  - intros i Hi Hn. rewrite Hq by lia. unfold in_trailer in Hn.
    destruct (Z.leb_spec (so_payload s * 8) i); cbn [andb]; [|reflexivity].
    destruct (Z.ltb_spec i (so_payload s * 8 + zlen (a ++ b))); [lia|reflexivity].
  - intros i Hi. unfold in_trailer in Hi. rewrite Hq by lia.
    rewrite (proj2 (Z.leb_le _ _)), (proj2 (Z.ltb_lt _ _)) by lia. cbn [andb]. unfold trailer_bit.
    replace (so_payload s * 8) with (8 * so_payload s) by lia.
    destruct (Z.ltb_spec (i - 8 * so_payload s) (so_fresh_tx s)).
    + rewrite app_nth1 by lia. rewrite Ba by lia. rewrite Z.mod_pow2_bits_low by lia. reflexivity.
    + rewrite app_nth2 by lia.
      replace (Z.to_nat (i - 8 * so_payload s) - List.length a)%nat with (Z.to_nat (i - 8 * so_payload s - so_fresh_tx s)) by lia.
      apply Bb. lia.
Qed.

Lemma bytes_eqb_eq a b : bytes_eqb a b = true <-> a = b.
Proof.
  revert b. induction a as [|x a IH]; intros [|y b]; cbn; try (split; congruence).
  rewrite andb_true_iff, Z.eqb_eq, IH. split; [intros [-> ->]; reflexivity|intros [= -> ->]; auto].
Qed.

(** Verification succeeds exactly if the trailer is the one that belongs to the protected bits. *)
Theorem C32_verify s f p fresh :
  bytes_ok p -> secoc_ok s p fresh ->
  exists d b, is_secured s p fresh d /\ verify_authenticator s f p fresh = Ok b /\
    (b = true <-> forall i, in_trailer s i -> tx_bit p i = trailer_bit s (f d fresh) fresh i).
Proof.
  intros Hb Hok. destruct (C32_apply s f p fresh Hb Hok) as (d & q & Sd & Eq & Bq & Lq & Hout & Hin).
  exists d, (bytes_eqb p q). split; [exact Sd|]. unfold verify_authenticator. rewrite Eq. cbn [bind]. split; [reflexivity|].
  rewrite bytes_eqb_eq. split.
  - intros -> i Hi. apply Hin, Hi.
  - intros H. apply tx_ext; auto. intros i Hi.
    assert (D : in_trailer s i \/ ~ in_trailer s i) by (unfold in_trailer; lia).
    destruct D as [D|D]; [rewrite Hin, H by exact D; reflexivity|symmetry; apply Hout; auto].
Qed.

(** A payload that the authenticator was applied to is accepted. *)
Theorem C32_apply_verifies s f p fresh :
  bytes_ok p -> secoc_ok s p fresh ->
  exists q, apply_authenticator s f p fresh = Ok q /\ verify_authenticator s f q fresh = Ok true.
Proof.
  intros Hb Hok. destruct (C32_apply s f p fresh Hb Hok) as (d & q & Sd & Eq & Bq & Lq & Hout & Hin).
  exists q. split; [exact Eq|].
  assert (Hokq : secoc_ok s q fresh) by (unfold secoc_ok in *; rewrite Lq; exact Hok).
  destruct (C32_verify s f q fresh Bq Hokq) as (d' & b & Sd' & -> & Hv). f_equal. apply Hv.
  destruct Hok as (_ & Hp & Hf & Hft & Ha & _ & Hfit).
  replace d' with d; [exact Hin|]. apply (is_secured_unique s p q fresh); auto.
  intros i Hi. symmetry. apply Hout; unfold in_trailer; lia.
Qed.

(** An accepted payload that is changed in trailer bits only is rejected. *)
Theorem C32_trailer_change_detected s f p q fresh :
  bytes_ok p -> bytes_ok q -> zlen p = zlen q -> secoc_ok s p fresh ->
  verify_authenticator s f p fresh = Ok true -> p <> q ->
  (forall i, 0 <= i < 8 * zlen p -> ~ in_trailer s i -> tx_bit q i = tx_bit p i) ->
  verify_authenticator s f q fresh = Ok false.
Proof.
  intros Hp Hq Hl Hok Hv Hne Hout.
  destruct (C32_verify s f p fresh Hp Hok) as (d & b & Sd & Ev & Hb). rewrite Hv in Ev. apply Ok_inj in Ev. subst b.
  assert (Hokq : secoc_ok s q fresh) by (unfold secoc_ok in *; rewrite <- Hl; exact Hok).
  destruct (C32_verify s f q fresh Hq Hokq) as (d' & b & Sd' & -> & Hb'). f_equal.
  apply not_true_is_false. intros Hbt. apply Hne. apply tx_ext; auto.
  destruct Hok as (_ & Hpl & Hf & Hft & Ha & _ & Hfit).
  assert (d' = d). { apply (is_secured_unique s q p fresh); auto. intros i Hi. apply Hout; unfold in_trailer; lia. } subst d'.
  intros i Hi. assert (D : in_trailer s i \/ ~ in_trailer s i) by (unfold in_trailer; lia).
  destruct D as [D|D]; [|symmetry; apply Hout; auto].
  rewrite (proj1 Hb eq_refl i D), (proj1 Hb' Hbt i D). reflexivity.
Qed.

(** ** Examples: 5 payload bytes, 6 of 16 freshness bits and 10 authenticator bits in a 7 byte frame *)
Definition ex_secoc : secoc := mkSecoc 16 6 10 0x1337 5.
Definition ex_payload : list Z := [1; 2; 3; 4; 0xFF; 0; 0].
Example C32_hypotheses : bytes_ok ex_payload /\ secoc_ok ex_secoc ex_payload 0x1234.
Proof. split; [repeat constructor|]; unfold secoc_ok; cbn; lia. Qed.
Example C32_applied :
  let f := snake_oil [99; 0; 255] in
  apply_authenticator ex_secoc f ex_payload 0x1234 = Ok [1; 2; 3; 4; 0xFF; 211; 135] /\
  verify_authenticator ex_secoc f [1; 2; 3; 4; 0xFF; 211; 135] 0x1234 = Ok true /\
  verify_authenticator ex_secoc f [1; 2; 3; 4; 0xFF; 211; 134] 0x1234 = Ok false.
Proof. vm_compute. auto. Qed.
