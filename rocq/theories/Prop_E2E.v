(** Prop_E2E: properties C30 and C31 of the AUTOSAR end-to-end protection. *)
From Verif Require Import Base PyNum Bitstruct J1939 Autosar DictLemmas BitsLemmas NodeProofs.
Ltac Zify.zify_post_hook ::= Z.div_mod_to_equations.

(** The CRC model has the check values of the AUTOSAR CRC library specification. *)
Example crc_check_values :
  crc8_autosar [49; 50; 51; 52; 53; 54; 55; 56; 57] = 0xDF /\
  crc16_autosar 0xffff [49; 50; 51; 52; 53; 54; 55; 56; 57] = 0x29B1.
Proof. split; vm_compute; reflexivity. Qed.

(** ** Algebra of one CRC step *)
Section Crc.
  Variables w poly : Z.
  Hypothesis Hw : 8 <= w.
  Hypothesis Hp : 0 <= poly < 2 ^ w.
  Hypothesis Hodd : Z.testbit poly 0 = true.

  Definition reg (x : Z) : Prop := 0 <= x < 2 ^ w.

  Lemma reg_ext x y : reg x -> reg y -> (forall i, 0 <= i < w -> Z.testbit x i = Z.testbit y i) -> x = y.
  Proof.
    intros Hx Hy H. apply Z.bits_inj'. intros i Hi. destruct (Z.lt_ge_cases i w) as [L|G]; [apply H; lia|].
    now rewrite (testbit_high x w), (testbit_high y w).
  Qed.
  Lemma reg_lxor x y : reg x -> reg y -> reg (Z.lxor x y).
  Proof.
    intros Hx Hy. apply testbit_bound; [lia|]. intros i Hi.
    now rewrite Z.lxor_spec, (testbit_high x w), (testbit_high y w).
  Qed.

  Lemma crc_bit_reg x : reg x -> reg (crc_bit w poly x).
  Proof.
    intros Hx. unfold crc_bit. assert (reg (2 * x mod 2 ^ w)) by (unfold reg; apply Z.mod_pos_bound; lia).
    destruct (Z.testbit x (w - 1)); [apply reg_lxor|]; assumption.
  Qed.
  Lemma crc_bit_test x i : reg x -> 0 <= i < w -> Z.testbit (crc_bit w poly x) i =
    xorb (if i =? 0 then false else Z.testbit x (i - 1)) (Z.testbit x (w - 1) && Z.testbit poly i).
  Proof.
    intros Hx Hi. unfold crc_bit.
    assert (D : Z.testbit (2 * x mod 2 ^ w) i = if i =? 0 then false else Z.testbit x (i - 1)).
    { rewrite Z.mod_pow2_bits_low by lia. destruct (Z.eqb_spec i 0) as [->|N]; [apply Z.testbit_even_0|].
      replace i with (Z.succ (i - 1)) at 1 by lia. apply Z.testbit_even_succ. lia. }
    destruct (Z.testbit x (w - 1)); rewrite ?Z.lxor_spec, D; cbn [andb]; [reflexivity|]. now rewrite xorb_false_r.
  Qed.
  Lemma crc_bit_lxor x y : reg x -> reg y -> crc_bit w poly (Z.lxor x y) = Z.lxor (crc_bit w poly x) (crc_bit w poly y).
  Proof.
    intros Hx Hy. apply reg_ext; auto using crc_bit_reg, reg_lxor. intros i Hi.
    rewrite Z.lxor_spec, !crc_bit_test, !Z.lxor_spec by auto using reg_lxor.
    destruct (i =? 0), (Z.testbit x (i - 1)), (Z.testbit y (i - 1)), (Z.testbit x (w - 1)), (Z.testbit y (w - 1)), (Z.testbit poly i);
      reflexivity.
  Qed.
  Lemma crc_bit_inj x y : reg x -> reg y -> crc_bit w poly x = crc_bit w poly y -> x = y.
  Proof.
    intros Hx Hy E.
    assert (B : forall i, 0 <= i < w -> Z.testbit (crc_bit w poly x) i = Z.testbit (crc_bit w poly y) i) by (intros; now rewrite E).
    assert (T : Z.testbit x (w - 1) = Z.testbit y (w - 1)).
    { specialize (B 0 ltac:(lia)). rewrite !crc_bit_test, Hodd in B by (auto; lia).
      now destruct (Z.testbit x (w - 1)), (Z.testbit y (w - 1)). }
    apply reg_ext; auto. intros i Hi. destruct (Z.eq_dec i (w - 1)) as [->|N]; [assumption|].
    specialize (B (i + 1) ltac:(lia)). rewrite !crc_bit_test, T in B by (auto; lia).
    destruct (Z.eqb_spec (i + 1) 0); [lia|]. replace (i + 1 - 1) with i in B by lia.
    destruct (Z.testbit x i), (Z.testbit y i), (Z.testbit y (w - 1) && Z.testbit poly (i + 1)); auto.
  Qed.

  Lemma iter_plus n k x : Nat.iter (n + k) (crc_bit w poly) x = Nat.iter n (crc_bit w poly) (Nat.iter k (crc_bit w poly) x).
  Proof. induction n as [|n IH]; [reflexivity|]. cbn [Nat.add]. change (crc_bit w poly (Nat.iter (n + k) (crc_bit w poly) x) =
    crc_bit w poly (Nat.iter n (crc_bit w poly) (Nat.iter k (crc_bit w poly) x))). now rewrite IH. Qed.
  Lemma iter_reg n x : reg x -> reg (Nat.iter n (crc_bit w poly) x).
  Proof. intros H. induction n; [assumption|]. now apply crc_bit_reg. Qed.
  Lemma iter_lxor n x y : reg x -> reg y ->
    Nat.iter n (crc_bit w poly) (Z.lxor x y) = Z.lxor (Nat.iter n (crc_bit w poly) x) (Nat.iter n (crc_bit w poly) y).
  Proof.
    intros Hx Hy. induction n as [|n IH]; [reflexivity|]. cbn [Nat.iter nat_rect]. 
    change (nat_rect (fun _ => Z) (Z.lxor x y) (fun _ => crc_bit w poly) n) with (Nat.iter n (crc_bit w poly) (Z.lxor x y)).
    rewrite IH. apply crc_bit_lxor; now apply iter_reg.
  Qed.
  Lemma iter_inj n x y : reg x -> reg y -> Nat.iter n (crc_bit w poly) x = Nat.iter n (crc_bit w poly) y -> x = y.
  Proof.
    intros Hx Hy. induction n as [|n IH]; [easy|]. intros E. apply IH.
    apply (crc_bit_inj (Nat.iter n (crc_bit w poly) x) (Nat.iter n (crc_bit w poly) y)); auto using iter_reg.
  Qed.
  (** Without overflow the step only shifts. *)
  Lemma iter_shift n x : 0 <= x < 2 ^ (w - Z.of_nat n) -> Z.of_nat n <= w -> Nat.iter n (crc_bit w poly) x = x * 2 ^ Z.of_nat n.
  Proof.
    intros Hx Hn. induction n as [|n IH]; [cbn; lia|].
    assert (P : 2 ^ (w - Z.of_nat n) = 2 * 2 ^ (w - Z.of_nat (S n))) by (rewrite <- Z.pow_succ_r by lia; f_equal; lia).
    change (Nat.iter (S n) (crc_bit w poly) x) with (crc_bit w poly (Nat.iter n (crc_bit w poly) x)). rewrite IH by lia.
    unfold crc_bit.
    assert (Q : 2 ^ (w - 1) = 2 ^ (w - Z.of_nat (S n)) * 2 ^ Z.of_nat n) by (rewrite <- Z.pow_add_r by lia; f_equal; lia).
    assert (R : 2 ^ w = 2 * 2 ^ (w - 1)) by (rewrite <- Z.pow_succ_r by lia; f_equal; lia).
    assert (S1 : 0 < 2 ^ Z.of_nat n) by lia.
    assert (Hb : 0 <= x * 2 ^ Z.of_nat n < 2 ^ (w - 1)) by (rewrite Q; nia).
    assert (T : Z.testbit (x * 2 ^ Z.of_nat n) (w - 1) = false) by (apply (testbit_high _ (w - 1)); lia).
    rewrite T, Z.mod_small by lia. rewrite (Nat2Z.inj_succ n), Z.pow_succ_r by lia. lia.
  Qed.

  Lemma byte_reg b : 0 <= b < 256 -> reg (b * 2 ^ (w - 8)).
  Proof.
    intros Hb. unfold reg. assert (P : 2 ^ w = 256 * 2 ^ (w - 8)) by (change 256 with (2 ^ 8); rewrite <- Z.pow_add_r by lia; f_equal; lia).
    assert (0 < 2 ^ (w - 8)) by lia. nia.
  Qed.
  Lemma crc_byte_reg c b : reg c -> 0 <= b < 256 -> reg (crc_byte w poly c b).
  Proof. intros Hc Hb. apply iter_reg. apply reg_lxor; [assumption|]. now apply byte_reg. Qed.
  Lemma fold_reg l : forall c, reg c -> bytes_ok l -> reg (fold_left (crc_byte w poly) l c).
  Proof.
    induction l as [|b l IH]; intros c Hc Hl; [assumption|]. inversion Hl; subst. cbn [fold_left]. apply IH; [|assumption].
    now apply crc_byte_reg.
  Qed.
  Lemma lxor_cancel a b c : Z.lxor a c = Z.lxor b c -> a = b.
  Proof.
    intros E. assert (F : Z.lxor (Z.lxor a c) c = Z.lxor (Z.lxor b c) c) by now rewrite E.
    now rewrite !Z.lxor_assoc, Z.lxor_nilpotent, !Z.lxor_0_r in F.
  Qed.
  Lemma lxor_cancel_l a b c : Z.lxor c a = Z.lxor c b -> a = b.
  Proof. rewrite !(Z.lxor_comm c). apply lxor_cancel. Qed.

  (** Different registers stay different under the same bytes. *)
  Lemma fold_inj l : forall c c', reg c -> reg c' -> bytes_ok l ->
    fold_left (crc_byte w poly) l c = fold_left (crc_byte w poly) l c' -> c = c'.
  Proof.
    induction l as [|b l IH]; intros c c' Hc Hc' Hl E; [assumption|]. inversion Hl; subst. cbn [fold_left] in E.
    apply IH in E; auto using crc_byte_reg. unfold crc_byte in E. apply (iter_inj 8) in E; auto using reg_lxor, byte_reg.
    now apply lxor_cancel in E.
  Qed.
  Lemma crc_byte_inj c b b' : reg c -> 0 <= b < 256 -> 0 <= b' < 256 -> crc_byte w poly c b = crc_byte w poly c b' -> b = b'.
  Proof.
    intros Hc Hb Hb' E. unfold crc_byte in E. apply (iter_inj 8) in E; auto using reg_lxor, byte_reg.
    apply lxor_cancel_l in E. assert (0 < 2 ^ (w - 8)) by lia. nia.
  Qed.

  (** Two consecutive bytes, for registers of at least 16 bits. *)
  Lemma crc_two_bytes c b1 b2 : 16 <= w -> reg c -> 0 <= b1 < 256 -> 0 <= b2 < 256 ->
    crc_byte w poly (crc_byte w poly c b1) b2 =
    Nat.iter 16 (crc_bit w poly) (Z.lxor c (Z.lxor (b1 * 2 ^ (w - 8)) (b2 * 2 ^ (w - 16)))).
  Proof.
    intros H16 Hc H1 H2.
    assert (B2 : reg (b2 * 2 ^ (w - 16))).
    { unfold reg. assert (P : 2 ^ w = 65536 * 2 ^ (w - 16)) by (change 65536 with (2 ^ 16); rewrite <- Z.pow_add_r by lia; f_equal; lia).
      assert (0 < 2 ^ (w - 16)) by lia. nia. }
    assert (SH : b2 * 2 ^ (w - 8) = Nat.iter 8 (crc_bit w poly) (b2 * 2 ^ (w - 16))).
    { rewrite iter_shift; [|change (Z.of_nat 8) with 8; split; [lia|]|lia].
      - change (Z.of_nat 8) with 8. rewrite <- Z.mul_assoc, <- Z.pow_add_r by lia. f_equal. f_equal. lia.
      - assert (P : 2 ^ (w - 8) = 256 * 2 ^ (w - 16)) by (change 256 with (2 ^ 8); rewrite <- Z.pow_add_r by lia; f_equal; lia). assert (0 < 2 ^ (w - 16)) by lia. nia. }
    unfold crc_byte. rewrite SH. rewrite <- iter_lxor by auto using reg_lxor, byte_reg. rewrite Z.lxor_assoc.
    symmetry. apply (iter_plus 8 8).
  Qed.
  Lemma two_bytes_inj c a1 a2 b1 b2 : 16 <= w -> reg c ->
    0 <= a1 < 256 -> 0 <= a2 < 256 -> 0 <= b1 < 256 -> 0 <= b2 < 256 ->
    crc_byte w poly (crc_byte w poly c a1) a2 = crc_byte w poly (crc_byte w poly c b1) b2 -> a1 = b1 /\ a2 = b2.
  Proof.
    intros H16 Hc A1 A2 B1 B2 E. rewrite !crc_two_bytes in E by assumption.
    assert (Q : forall b, 0 <= b < 256 -> 0 <= b * 2 ^ (w - 16) < 2 ^ (w - 8)).
    { intros b Hb. assert (P : 2 ^ (w - 8) = 256 * 2 ^ (w - 16)) by (change 256 with (2 ^ 8); rewrite <- Z.pow_add_r by lia; f_equal; lia).
      assert (0 < 2 ^ (w - 16)) by lia. nia. }
    assert (R : forall b, 0 <= b < 256 -> reg (b * 2 ^ (w - 16))).
    { intros b Hb. destruct (Q b Hb). unfold reg. split; [lia|]. apply Z.lt_le_trans with (2 ^ (w - 8)); [lia|]. apply Z.pow_le_mono_r; lia. }
    apply (iter_inj 16) in E; auto using reg_lxor, byte_reg. apply lxor_cancel_l in E.
    assert (D : forall i, 0 <= i -> xorb (Z.testbit (a1 * 2 ^ (w - 8)) i) (Z.testbit (a2 * 2 ^ (w - 16)) i) =
                        xorb (Z.testbit (b1 * 2 ^ (w - 8)) i) (Z.testbit (b2 * 2 ^ (w - 16)) i)).
    { intros i Hi. rewrite <- !Z.lxor_spec. now rewrite E. }
    assert (X1 : a1 * 2 ^ (w - 8) = b1 * 2 ^ (w - 8)).
    { apply Z.bits_inj'. intros i Hi. destruct (Z.lt_ge_cases i (w - 8)).
      - rewrite !Z.mul_pow2_bits_low by lia. reflexivity.
      - specialize (D i Hi). rewrite (testbit_high (a2 * _) (w - 8)), (testbit_high (b2 * _) (w - 8)) in D by (auto; lia).
        now rewrite !xorb_false_r in D. }
    assert (0 < 2 ^ (w - 8)) by lia. assert (0 < 2 ^ (w - 16)) by lia. assert (a1 = b1) by nia. subst b1. split; [reflexivity|].
    apply lxor_cancel_l in E. nia.
  Qed.
End Crc.

(** ** CRC of byte strings that differ in one byte or in two neighbouring bytes *)
Lemma fold_app_crc w poly l1 l2 c : fold_left (crc_byte w poly) (l1 ++ l2) c = fold_left (crc_byte w poly) l2 (fold_left (crc_byte w poly) l1 c).
Proof. apply fold_left_app. Qed.

Lemma bytes_app l1 l2 : bytes_ok (l1 ++ l2) <-> bytes_ok l1 /\ bytes_ok l2.
Proof. apply Forall_app. Qed.

Lemma one_byte_differs w poly c l x y r : 8 <= w -> 0 <= poly < 2 ^ w -> Z.testbit poly 0 = true -> reg w c ->
  bytes_ok l -> bytes_ok r -> 0 <= x < 256 -> 0 <= y < 256 ->
  fold_left (crc_byte w poly) (l ++ x :: r) c = fold_left (crc_byte w poly) (l ++ y :: r) c -> x = y.
Proof.
  intros W P O C L R X Y E. rewrite !fold_app_crc in E. cbn [fold_left] in E.
  assert (Rl := fold_reg w poly W P l c C L).
  apply fold_inj in E; auto using crc_byte_reg. apply crc_byte_inj in E; auto.
Qed.
Lemma two_bytes_differ w poly c l x1 x2 y1 y2 r : 16 <= w -> 0 <= poly < 2 ^ w -> Z.testbit poly 0 = true -> reg w c ->
  bytes_ok l -> bytes_ok r -> 0 <= x1 < 256 -> 0 <= x2 < 256 -> 0 <= y1 < 256 -> 0 <= y2 < 256 ->
  fold_left (crc_byte w poly) (l ++ x1 :: x2 :: r) c = fold_left (crc_byte w poly) (l ++ y1 :: y2 :: r) c -> x1 = y1 /\ x2 = y2.
Proof.
  intros W P O C L R X1 X2 Y1 Y2 E. rewrite !fold_app_crc in E. cbn [fold_left] in E. assert (W8 : 8 <= w) by lia.
  assert (Rl := fold_reg w poly W8 P l c C L).
  apply fold_inj in E; auto using crc_byte_reg. apply two_bytes_inj in E; auto.
Qed.

Definition reg8 := reg 8. Definition reg16 := reg 16.
Lemma crc8_range l : bytes_ok l -> 0 <= crc8_autosar l < 256.
Proof.
  intros H. unfold crc8_autosar, crc. apply (reg_lxor 8 0); [lia| |unfold reg; lia].
  apply fold_reg; try lia; [unfold reg; lia|assumption].
Qed.
Lemma crc8_inj l l' : crc8_autosar l = crc8_autosar l' ->
  fold_left (crc_byte 8 0x2F) l 0xFF = fold_left (crc_byte 8 0x2F) l' 0xFF.
Proof. unfold crc8_autosar, crc. apply lxor_cancel. Qed.

(** ** C30 *)
Lemma compute2_tail x y t src : compute_profile2_crc (x :: t) src = compute_profile2_crc (y :: t) src.
Proof.
  unfold compute_profile2_crc. replace (zlen (x :: t)) with (zlen (y :: t)) by reflexivity.
  assert (S : forall b, py_slice 1 b (x :: t) = py_slice 1 b (y :: t)).
  { intros b. unfold py_slice. now replace (zlen (x :: t)) with (zlen (y :: t)) by reflexivity. }
  destruct (_ <? 2); [reflexivity|]. destruct src as [i|[[ids pl]|]]; cbn [bind]; [now rewrite S| |reflexivity].
  cbn [nth]. destruct (negb _); cbn [bind]; [reflexivity|]. now rewrite S.
Qed.
Lemma bytes_slice a b l : bytes_ok l -> bytes_ok (py_slice a b l).
Proof.
  intros H. unfold py_slice, slice. unfold bytes_ok in *. rewrite Forall_forall in *. intros x Hx. apply H.
  revert Hx. generalize (Z.to_nat ((if b <? 0 then Z.max 0 (b + zlen l) else b) - a)). intros k Hx.
  assert (In x (skipn (Z.to_nat a) l)) by (rewrite <- (firstn_skipn k); apply in_or_app; auto).
  rewrite <- (firstn_skipn (Z.to_nat a) l). apply in_or_app; auto.
Qed.
Lemma compute2_range p src c : bytes_ok p -> compute_profile2_crc p src = Ok (Some c) -> 0 <= c < 256.
Proof.
  intros BO H. unfold compute_profile2_crc in H. destruct (_ <? 2); [discriminate|].
  apply bind_ok in H. destruct H as ([[pl id]|] & _ & H); [|discriminate].
  apply bind_ok in H. destruct H as (i & Hi & H). apply Ok_inj in H. injection H as <-.
  unfold byte_value in Hi. destruct (_ && _) eqn:E in Hi; [|discriminate]. apply Ok_inj in Hi. subst i.
  apply crc8_range. apply bytes_app. split; [now apply bytes_slice|]. repeat constructor; unfold byte_ok; lia.
Qed.

(** What apply returns is accepted by check and differs from the payload in byte 0 at most; apply and
    check answer for the same payloads. *)
Theorem C30_profile2 : forall p src, bytes_ok p ->
  (forall q, apply_profile2_crc p src = Ok (Some q) ->
     check_profile2_crc q src = Ok (Some true) /\ bytes_ok q /\ zlen q = zlen p /\ skipn 1 q = skipn 1 p) /\
  (apply_profile2_crc p src = Ok None <-> check_profile2_crc p src = Ok None).
Proof.
  intros p src BO. unfold apply_profile2_crc, check_profile2_crc. split.
  - intros q H. apply bind_ok in H. destruct H as ([c|] & Hc & H); [|discriminate].
    apply bind_ok in H. destruct H as (b & Hb & H). apply Ok_inj in H. injection H as <-.
    unfold byte_value in Hb. destruct (_ && _) eqn:E in Hb; [|discriminate]. apply Ok_inj in Hb. subst b.
    destruct p as [|x t]; [discriminate Hc|]. cbn [skipn]. rewrite (compute2_tail c x), Hc. cbn [bind nth].
    rewrite Z.eqb_refl. split; [reflexivity|]. inversion BO; subst.
    split; [constructor; [unfold byte_ok; lia|assumption]|]. split; [|reflexivity]. reflexivity.
  - destruct (compute_profile2_crc p src) as [[c|]|e] eqn:E; cbn [bind]; [|tauto|split; discriminate].
    pose proof (compute2_range p src c BO E) as R. unfold byte_value.
    destruct (_ && _); cbn [bind]; split; discriminate.
Qed.
(** apply succeeds for every payload of at least two bytes and every id of one byte. *)
Theorem C30_profile2_total : forall p id, bytes_ok p -> 2 <= zlen p -> 0 <= id < 256 ->
  exists q, apply_profile2_crc p (ById id) = Ok (Some q).
Proof.
  intros p id BO L I. unfold apply_profile2_crc.
  destruct (compute_profile2_crc p (ById id)) as [[c|]|e] eqn:E.
  - cbn [bind]. pose proof (compute2_range _ _ _ BO E). unfold byte_value.
    destruct (_ && _) eqn:EC; [|lia]. cbn [bind]. eauto.
  - exfalso. unfold compute_profile2_crc in E. destruct (Z.ltb_spec (zlen p) 2); [lia|]. cbn [bind] in E. unfold byte_value in E.
    destruct (_ && _) eqn:EC in E; [|lia]. cbn [bind] in E. discriminate.
  - exfalso. unfold compute_profile2_crc in E. destruct (Z.ltb_spec (zlen p) 2); [lia|]. cbn [bind] in E. unfold byte_value in E.
    destruct (_ && _) eqn:EC in E; [|lia]. cbn [bind] in E. discriminate.
Qed.

(** Profile 5. *)
Definition id_lo (id : Z) : Z := Z.land id 0xff.
Definition id_hi (id : Z) : Z := Z.land (Z.shiftr id 8) 0xff.
Lemma low_byte z : 0 <= Z.land z 0xff < 256.
Proof. change 0xff with (Z.ones 8). rewrite Z.land_ones by lia. apply Z.mod_pos_bound. lia. Qed.
Lemma crc16_three l id : crc16_autosar (crc16_autosar (crc16_autosar 0xffff l) [id_lo id]) [id_hi id] =
  fold_left (crc_byte 16 0x1021) (l ++ [id_lo id; id_hi id]) 0xffff.
Proof. unfold crc16_autosar, crc. rewrite !Z.lxor_0_r, fold_app_crc. cbn [fold_left]. reflexivity. Qed.
Opaque crc_byte.

Definition protected5 (n : Z) (src : e2e_source) : option (Z * Z) :=
  match src with
  | ById id => Some (n, id)
  | ByMessage (Some ([id], plen)) => Some (plen, id)
  | ByMessage _ => None
  end.
Lemma compute5_eq p src : compute_profile5_crc p src =
  if zlen p <? 4 then Ok None else
  match protected5 (zlen p) src with
  | None => Ok None
  | Some (plen, id) => Ok (Some (fold_left (crc_byte 16 0x1021) (py_slice 2 plen p ++ [id_lo id; id_hi id]) 0xffff))
  end.
Proof.
  unfold compute_profile5_crc. destruct (_ <? 4); [reflexivity|]. destruct src as [i|[[ids pl]|]]; cbn [protected5].
  - cbv zeta. now rewrite <- crc16_three.
  - destruct ids as [|i [|j ids]]; cbn [negb nth].
    + reflexivity.
    + cbv zeta. change (zlen [i] =? 1) with true. cbn [negb nth]. now rewrite <- crc16_three.
    + assert (H : zlen (i :: j :: ids) =? 1 = false) by (unfold zlen; cbn [List.length]; lia). now rewrite H.
  - reflexivity.
Qed.
Lemma compute5_range p src c : bytes_ok p -> compute_profile5_crc p src = Ok (Some c) -> 0 <= c < 2 ^ 16.
Proof.
  intros BO H. rewrite compute5_eq in H. destruct (_ <? 4); [discriminate|]. destruct (protected5 _ _) as [[pl id]|]; [|discriminate].
  apply Ok_inj in H. injection H as <-. apply (fold_reg 16 0x1021); try lia; [unfold reg; lia|].
  apply bytes_app. split; [now apply bytes_slice|]. repeat constructor; apply low_byte.
Qed.
Lemma split_16 c : 0 <= c < 2 ^ 16 -> Z.land c 0xff + Z.shiftl (Z.land (Z.shiftr c 8) 0xff) 8 = c.
Proof.
  intros H. change 0xff with (Z.ones 8). rewrite !Z.land_ones, Z.shiftl_mul_pow2, Z.shiftr_div_pow2 by lia.
  change (2 ^ 8) with 256. change (2 ^ 16) with 65536 in H. lia.
Qed.

Theorem C30_profile5 : forall p src, bytes_ok p ->
  (forall q, apply_profile5_crc p src = Ok (Some q) ->
     check_profile5_crc q src = Ok (Some true) /\ bytes_ok q /\ zlen q = zlen p /\ skipn 2 q = skipn 2 p) /\
  (apply_profile5_crc p src = Ok None <-> check_profile5_crc p src = Ok None) /\
  (forall id, src = ById id -> 4 <= zlen p -> exists q, apply_profile5_crc p src = Ok (Some q)).
Proof.
  intros p src BO. unfold apply_profile5_crc, check_profile5_crc. split; [|split].
  - intros q H. apply bind_ok in H. destruct H as ([c|] & Hc & H); [|discriminate]. apply Ok_inj in H. injection H as <-.
    assert (R := compute5_range p src c BO Hc).
    destruct p as [|x [|x2 t]]; [discriminate Hc|discriminate Hc|]. cbn [skipn].
    assert (T : compute_profile5_crc (Z.land c 255 :: Z.land (Z.shiftr c 8) 255 :: t) src = compute_profile5_crc (x :: x2 :: t) src).
    { rewrite !compute5_eq. replace (zlen (Z.land c 255 :: Z.land (Z.shiftr c 8) 255 :: t)) with (zlen (x :: x2 :: t)) by reflexivity.
      destruct (_ <? 4); [reflexivity|]. destruct (protected5 _ _) as [[pl id]|]; [|reflexivity].
      reflexivity. }
    change 0xff with 255. rewrite T, Hc. cbn [bind nth]. rewrite split_16 by assumption. rewrite Z.eqb_refl.
    split; [reflexivity|]. inversion BO as [|? ? ? B2]; subst. inversion B2; subst.
    split; [repeat constructor; auto; apply low_byte|]. split; reflexivity.
  - destruct (compute_profile5_crc p src) as [[c|]|e]; cbn [bind]; split; congruence.
  - intros id -> L. rewrite compute5_eq. destruct (Z.ltb_spec (zlen p) 4); [lia|]. cbn [protected5 bind]. eauto.
Qed.
Example C30_hypotheses : bytes_ok [0; 3; 17; 250; 9] /\
  apply_profile2_crc [0; 3; 17; 250; 9] (ByMessage (Some (map (fun i => 7 * i) (zrange 1 17), 5))) = Ok (Some [32; 3; 17; 250; 9]) /\
  apply_profile5_crc [0; 3; 17; 250; 9] (ById 0x1234) = Ok (Some [82; 45; 17; 250; 9]).
Proof. split; [repeat constructor; vm_compute; congruence|]. split; vm_compute. reflexivity. reflexivity. Qed.

(** ** C31 *)
Lemma slice_split a n l x r : 0 <= a <= zlen l -> zlen l < n ->
  py_slice a n (l ++ x :: r) = skipn (Z.to_nat a) l ++ x :: firstn (Z.to_nat (n - zlen l - 1)) r.
Proof.
  intros Ha Hn. unfold py_slice. destruct (Z.ltb_spec n 0); [unfold zlen in *; lia|]. unfold slice.
  rewrite skipn_app. replace (Z.to_nat a - List.length l)%nat with O by (unfold zlen in *; lia). cbn [skipn].
  rewrite firstn_app, firstn_all2 by (rewrite skipn_length; unfold zlen in *; lia). f_equal.
  rewrite skipn_length. replace (Z.to_nat (n - a) - (List.length l - Z.to_nat a))%nat with (S (Z.to_nat (n - zlen l - 1)))
    by (unfold zlen in *; lia). reflexivity.
Qed.
Lemma bytes_firstn k l : bytes_ok l -> bytes_ok (firstn k l).
Proof. intros H. rewrite <- (firstn_skipn k l) in H. now apply bytes_app in H. Qed.
Lemma bytes_skipn k l : bytes_ok l -> bytes_ok (skipn k l).
Proof. intros H. rewrite <- (firstn_skipn k l) in H. now apply bytes_app in H. Qed.

(** The number of protected bytes: the whole payload if the data id is given, otherwise the payload
    length configured for the message. *)
Definition protected_length (n : Z) (src : e2e_source) : Z :=
  match src with ById _ => n | ByMessage (Some (_, plen)) => plen | ByMessage None => 0 end.

(** Profile 2: a received payload in which one protected byte was altered is rejected, as long as the
    sequence counter in byte 1, which selects the data id of a message, is kept. *)
Definition same_counter (p q : list Z) (src : e2e_source) : Prop :=
  match src with ById _ => True | ByMessage _ => Z.land (nth 1 p 0) 0xf = Z.land (nth 1 q 0) 0xf end.
Theorem C31_profile2 : forall l x y r src, bytes_ok (l ++ x :: r) -> bytes_ok (l ++ y :: r) -> x <> y ->
  (l = [] \/ zlen l < protected_length (zlen (l ++ x :: r)) src) -> same_counter (l ++ x :: r) (l ++ y :: r) src ->
  check_profile2_crc (l ++ x :: r) src = Ok (Some true) -> check_profile2_crc (l ++ y :: r) src = Ok (Some false).
Proof.
  intros l x y r src B1 B2 NE PR SC H. destruct l as [|l0 l].
  - cbn [app] in *. unfold check_profile2_crc in *. rewrite (compute2_tail y x). destruct (compute_profile2_crc (x :: r) src) as [[c|]|e]; cbn [bind] in *; try discriminate.
    apply Ok_inj in H. injection H as H. cbn [nth] in *. do 2 f_equal. apply Z.eqb_neq. lia.
  - destruct PR as [PR|PR]; [discriminate|]. set (p := (l0 :: l) ++ x :: r) in *. set (q := (l0 :: l) ++ y :: r) in *.
    assert (ZQ : zlen q = zlen p) by (unfold p, q, zlen; rewrite !app_length; reflexivity).
    assert (N0 : nth 0 q 0 = nth 0 p 0) by reflexivity.
    apply bytes_app in B1. apply bytes_app in B2. destruct B1 as [BL B1], B2 as [_ B2]. inversion B1 as [|? ? Bx Br]; subst. inversion B2 as [|? ? By _]; subst.
    inversion BL as [|? ? BL0 BL1]; subst.
    assert (SP : forall n, zlen (l0 :: l) < n -> py_slice 1 n p = l ++ x :: firstn (Z.to_nat (n - zlen (l0 :: l) - 1)) r /\
                                   py_slice 1 n q = l ++ y :: firstn (Z.to_nat (n - zlen (l0 :: l) - 1)) r).
    { intros n Hn. unfold p, q. rewrite !slice_split by (unfold zlen in *; cbn [List.length] in *; lia). split; reflexivity. }
    assert (DIFF : forall n id, zlen (l0 :: l) < n -> byte_ok id -> crc8_autosar (py_slice 1 n p ++ [id]) <> crc8_autosar (py_slice 1 n q ++ [id])).
    { intros n id Hn Hid E. apply crc8_inj in E. destruct (SP n Hn) as (S1 & S2). rewrite S1, S2 in E. rewrite <- !app_assoc in E. cbn [app] in E.
      apply one_byte_differs in E; try lia; try assumption; try reflexivity; [unfold reg; lia|].
      apply bytes_app. split; [now apply bytes_firstn|]. repeat constructor; assumption || apply Hid. }
    unfold check_profile2_crc in *. apply bind_ok in H. destruct H as ([c|] & Hc & H); [|discriminate]. apply Ok_inj in H. injection H as H. apply Z.eqb_eq in H.
    assert (QC : exists c', compute_profile2_crc q src = Ok (Some c') /\ c' <> c).
    { unfold compute_profile2_crc in *. rewrite ZQ. destruct (_ <? 2); [discriminate|].
      destruct src as [id|[[ids pl]|]]; cbn [protected_length same_counter] in *; [| |discriminate]; cbn [bind] in *.
      - destruct (byte_value id) as [i|] eqn:Ei; [|discriminate]. cbn [bind] in *. eexists. split; [reflexivity|].
        apply Ok_inj in Hc. injection Hc as <-. intros E. symmetry in E. revert E. apply DIFF; [assumption|].
        unfold byte_value in Ei. destruct (_ && _) eqn:EE in Ei; [|discriminate]. apply Ok_inj in Ei. subst i. unfold byte_ok. lia.
      - destruct (negb _); [discriminate|]. cbn [bind] in *. rewrite <- SC.
        destruct (byte_value _) as [i|] eqn:Ei; [|discriminate]. cbn [bind] in *. eexists. split; [reflexivity|].
        apply Ok_inj in Hc. injection Hc as <-. intros E. symmetry in E. revert E. apply DIFF; [assumption|].
        unfold byte_value in Ei. destruct (_ && _) eqn:EE in Ei; [|discriminate]. apply Ok_inj in Ei. subst i. unfold byte_ok. lia. }
    destruct QC as (c' & -> & NC). cbn [bind]. do 2 f_equal. apply Z.eqb_neq. rewrite N0. intros E. apply NC. rewrite H. exact E.
Qed.

(** Profile 5: any alteration of two neighbouring bytes of the protected part (or of one byte, or of the
    two CRC bytes) is detected. *)
Lemma compute5_differs p q src c : zlen q = zlen p -> compute_profile5_crc p src = Ok (Some c) ->
  (forall id, fold_left (crc_byte 16 0x1021) (py_slice 2 (protected_length (zlen p) src) p ++ [id_lo id; id_hi id]) 0xffff <>
              fold_left (crc_byte 16 0x1021) (py_slice 2 (protected_length (zlen p) src) q ++ [id_lo id; id_hi id]) 0xffff) ->
  exists c', compute_profile5_crc q src = Ok (Some c') /\ c' <> c.
Proof.
  intros ZQ H D. rewrite compute5_eq in *. rewrite ZQ. destruct (_ <? 4); [discriminate|].
  assert (PL : forall pl id, protected5 (zlen p) src = Some (pl, id) -> protected_length (zlen p) src = pl).
  { intros pl id. destruct src as [i|[[[|i [|j ids]] plen]|]]; cbn; congruence. }
  destruct (protected5 (zlen p) src) as [[pl id]|]; [|discriminate]. rewrite (PL pl id eq_refl) in D. apply Ok_inj in H. injection H as <-.
  eexists. split; [reflexivity|]. intros E. symmetry in E. revert E. apply D.
Qed.
Lemma check5_differs p q src c' : nth 0 p 0 = nth 0 q 0 -> nth 1 p 0 = nth 1 q 0 ->
  check_profile5_crc p src = Ok (Some true) -> (forall c, compute_profile5_crc p src = Ok (Some c) ->
    compute_profile5_crc q src = Ok (Some c') /\ c' <> c) -> check_profile5_crc q src = Ok (Some false).
Proof.
  intros N0 N1 H D. unfold check_profile5_crc in *. apply bind_ok in H. destruct H as ([c|] & Hc & H); [|discriminate].
  apply Ok_inj in H. injection H as H. apply Z.eqb_eq in H. destruct (D c Hc) as (-> & NC). cbn [bind]. do 2 f_equal. apply Z.eqb_neq.
  rewrite <- N0, <- N1. intros E. apply NC. rewrite H. exact E.
Qed.
Lemma compute5_head a b c d t src : compute_profile5_crc (a :: b :: t) src = compute_profile5_crc (c :: d :: t) src.
Proof.
  rewrite !compute5_eq. replace (zlen (a :: b :: t)) with (zlen (c :: d :: t)) by reflexivity.
  destruct (_ <? 4); [reflexivity|]. destruct (protected5 _ _) as [[pl id]|]; reflexivity.
Qed.
(** Changed CRC bytes. *)
Lemma check5_crc_bytes a b c d t src : 0 <= a < 256 -> 0 <= b < 256 -> 0 <= c < 256 -> 0 <= d < 256 -> (a, b) <> (c, d) ->
  check_profile5_crc (a :: b :: t) src = Ok (Some true) -> check_profile5_crc (c :: d :: t) src = Ok (Some false).
Proof.
  intros A B C D NE H. unfold check_profile5_crc in *. rewrite (compute5_head c d a b).
  destruct (compute_profile5_crc (a :: b :: t) src) as [[k|]|e]; cbn [bind] in *; try discriminate.
  assert (H' : (k =? a + Z.shiftl b 8) = true) by (cbn [nth] in H; congruence). clear H. rename H' into H.
  apply Z.eqb_eq in H. cbn [nth] in *. do 2 f_equal. apply Z.eqb_neq. intros E.
  rewrite Z.shiftl_mul_pow2 in H, E by lia. change (2 ^ 8) with 256 in *.   apply NE. f_equal; lia.
Qed.
(** Changes behind the CRC. *)
Lemma check5_behind l t u src : 2 <= zlen l -> zlen u = zlen t ->
  (forall id, fold_left (crc_byte 16 0x1021) (py_slice 2 (protected_length (zlen (l ++ t)) src) (l ++ t) ++ [id_lo id; id_hi id]) 0xffff <>
              fold_left (crc_byte 16 0x1021) (py_slice 2 (protected_length (zlen (l ++ t)) src) (l ++ u) ++ [id_lo id; id_hi id]) 0xffff) ->
  check_profile5_crc (l ++ t) src = Ok (Some true) -> check_profile5_crc (l ++ u) src = Ok (Some false).
Proof.
  intros L U D H. assert (ZQ : zlen (l ++ u) = zlen (l ++ t)) by (unfold zlen in *; rewrite !app_length; lia).
  assert (N : forall i, (i < 2)%nat -> nth i (l ++ t) 0 = nth i (l ++ u) 0) by (intros i Hi; rewrite !app_nth1 by (unfold zlen in L; lia); reflexivity).
  assert (X : exists c, compute_profile5_crc (l ++ t) src = Ok (Some c)).
  { unfold check_profile5_crc in H. apply bind_ok in H. destruct H as ([c|] & Hc & H1); [eauto|discriminate]. }
  destruct X as (c & Hc). destruct (compute5_differs _ _ _ _ ZQ Hc D) as (c' & Hc' & NC).
  apply (check5_differs (l ++ t) (l ++ u) src c'); [apply N; lia|apply N; lia|assumption|].
  intros c0 E. rewrite Hc in E. apply Ok_inj in E. injection E as ->. auto.
Qed.

Theorem C31_profile5_one_byte : forall l x y r src, bytes_ok (l ++ x :: r) -> bytes_ok (l ++ y :: r) -> x <> y ->
  (zlen l < 2 \/ zlen l < protected_length (zlen (l ++ x :: r)) src) ->
  check_profile5_crc (l ++ x :: r) src = Ok (Some true) -> check_profile5_crc (l ++ y :: r) src = Ok (Some false).
Proof.
  intros l x y r src B1 B2 NE PR H. apply bytes_app in B1. apply bytes_app in B2. destruct B1 as [BL B1], B2 as [_ B2].
  inversion B1 as [|? ? Bx Br]; subst. inversion B2 as [|? ? By _]; subst.
  destruct l as [|a [|b l]].
  - destruct r as [|b r]; [discriminate H|]. cbn [app] in *. inversion Br; subst.
    revert H. apply check5_crc_bytes; auto. congruence.
  - cbn [app] in *. inversion BL; subst. revert H. apply check5_crc_bytes; auto. congruence.
  - destruct PR as [PR|PR]; [unfold zlen in PR; cbn [List.length] in PR; lia|].
    revert H. apply check5_behind; [unfold zlen; cbn [List.length]; lia|reflexivity|].
    intros id E. rewrite !slice_split in E by (unfold zlen in *; cbn [List.length] in *; lia).
    rewrite <- !app_assoc in E. cbn [app] in E. apply one_byte_differs in E; try lia; try assumption; try reflexivity.
    + unfold reg; lia.
    + now apply bytes_skipn.
    + apply bytes_app. split; [now apply bytes_firstn|]. repeat constructor; apply low_byte.
Qed.
Theorem C31_profile5_two_bytes : forall l x1 x2 y1 y2 r src,
  bytes_ok (l ++ x1 :: x2 :: r) -> bytes_ok (l ++ y1 :: y2 :: r) -> (x1, x2) <> (y1, y2) ->
  (l = [] \/ 2 <= zlen l /\ zlen l + 1 < protected_length (zlen (l ++ x1 :: x2 :: r)) src) ->
  check_profile5_crc (l ++ x1 :: x2 :: r) src = Ok (Some true) -> check_profile5_crc (l ++ y1 :: y2 :: r) src = Ok (Some false).
Proof.
  intros l x1 x2 y1 y2 r src B1 B2 NE PR H. apply bytes_app in B1. apply bytes_app in B2. destruct B1 as [BL B1], B2 as [_ B2].
  inversion B1 as [|? ? Bx1 B1']; subst. inversion B1' as [|? ? Bx2 Br]; subst.
  inversion B2 as [|? ? By1 B2']; subst. inversion B2' as [|? ? By2 _]; subst. destruct PR as [->|[L PR]].
  - cbn [app] in *. revert H. apply check5_crc_bytes; auto.
  - revert H. apply check5_behind; [assumption|reflexivity|].
    intros id E. rewrite !slice_split in E by (unfold zlen in *; lia). rewrite <- !app_assoc in E. cbn [app] in E.
    remember (protected_length _ _) as n eqn:En. clear En.
    assert (F : forall z, firstn (Z.to_nat (n - zlen l - 1)) (z :: r) = z :: firstn (Z.to_nat (n - zlen l - 2)) r).
    { intros z. replace (Z.to_nat (n - zlen l - 1)) with (S (Z.to_nat (n - zlen l - 2))) by lia. reflexivity. }
    rewrite !F in E. cbn [app] in E. apply two_bytes_differ in E; try lia; try assumption; try reflexivity.
    + destruct E; congruence.
    + unfold reg; lia.
    + now apply bytes_skipn.
    + apply bytes_app. split; [now apply bytes_firstn|]. repeat constructor; apply low_byte.
Qed.

(** The neighbouring bytes 1 and 2 (the high CRC byte and the first protected byte) are an exception:
    in a payload of seven bytes some alterations of both are not detected. *)
Theorem C31_straddling_refuted : exists p q, bytes_ok p /\ bytes_ok q /\ p <> q /\
  nth 0 p 0 = nth 0 q 0 /\ skipn 3 p = skipn 3 q /\
  check_profile5_crc p (ById 0x1234) = Ok (Some true) /\ check_profile5_crc q (ById 0x1234) = Ok (Some true).
Proof.
  exists [211; 76; 0; 1; 2; 3; 4], [211; 112; 113; 1; 2; 3; 4].
  split; [repeat constructor; vm_compute; congruence|]. split; [repeat constructor; vm_compute; congruence|].
  split; [discriminate|]. split; [reflexivity|]. split; [reflexivity|]. split; vm_compute; reflexivity.
Qed.

(** Nor is an altered sequence counter of profile 2 always detected, since it selects another data id. *)
Theorem C31_counter_refuted : exists ids plen p q, bytes_ok p /\ bytes_ok q /\ nth 0 p 0 = nth 0 q 0 /\ skipn 2 p = skipn 2 q /\
  p <> q /\ NoDup ids /\ check_profile2_crc p (ByMessage (Some (ids, plen))) = Ok (Some true) /\
  check_profile2_crc q (ByMessage (Some (ids, plen))) = Ok (Some true).
Proof.
  exists ([0; 47] ++ zrange 48 62), 2, [71; 0], [71; 1].
  split; [repeat constructor; vm_compute; congruence|]. split; [repeat constructor; vm_compute; congruence|].
  split; [reflexivity|]. split; [reflexivity|]. split; [discriminate|]. split; [|split; vm_compute; reflexivity].
  vm_compute. repeat (constructor; [cbn [In]; lia|]). constructor.
Qed.

Example C31_hypotheses :
  check_profile2_crc ([32; 3] ++ 17 :: [250; 9]) (ByMessage (Some (map (fun i => 7 * i) (zrange 1 17), 5))) = Ok (Some true) /\
  same_counter ([32; 3] ++ 17 :: [250; 9]) ([32; 3] ++ 16 :: [250; 9]) (ByMessage (Some (map (fun i => 7 * i) (zrange 1 17), 5))) /\
  zlen [32; 3] < protected_length 5 (ByMessage (Some (map (fun i => 7 * i) (zrange 1 17), 5))) /\
  check_profile5_crc ([82; 45] ++ 17 :: 250 :: [9]) (ById 0x1234) = Ok (Some true).
Proof. split; [vm_compute; reflexivity|]. split; [reflexivity|]. split; [reflexivity|vm_compute; reflexivity]. Qed.
