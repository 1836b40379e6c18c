(** DecText: decimal text of integers: Python's str(int) ([decimal] of CNames) and int(str). *)
From Coq Require Import Ascii Decimal DecimalString DecimalPos DecimalZ.
From Verif Require Import Base CSource CNames.
Local Open Scope list_scope.
Local Open Scope Z_scope.

Definition digit_value (c : ascii) : Z := Z.of_N (N_of_ascii c) - 48.
Definition digits_value (acc : Z) (l : chars) : Z := fold_left (fun a c => 10 * a + digit_value c) l acc.

(** int(s) for ASCII text without white space or underscores: None is ValueError. *)
Definition unsigned_text (s : chars) : option Z :=
  match s with [] => None | _ => if forallb is_digit s then Some (digits_value 0 s) else None end.
Definition int_text (s : chars) : option Z :=
  match s with
  | c :: r => if Ascii.eqb c "-" then option_map Z.opp (unsigned_text r)
              else if Ascii.eqb c "+" then unsigned_text r else unsigned_text s
  | [] => None
  end.

Lemma string_of_uint_digits d : forallb is_digit (list_ascii_of_string (NilEmpty.string_of_uint d)) = true.
Proof. induction d; cbn; try reflexivity; exact IHd. Qed.
Lemma value_acc d : forall p, digits_value (Z.pos p) (list_ascii_of_string (NilEmpty.string_of_uint d)) = Z.pos (Pos.of_uint_acc d p).
Proof.
  unfold digits_value.
  induction d; intros p; [reflexivity|..];
    cbn [NilEmpty.string_of_uint list_ascii_of_string fold_left Pos.of_uint_acc]; rewrite <- IHd; f_equal;
    unfold digit_value; cbn [N_of_ascii]; 
    match goal with |- context [Z.of_N ?n] => let v := eval vm_compute in (Z.of_N n) in change (Z.of_N n) with v end; lia.
Qed.
Lemma value_uint d : digits_value 0 (list_ascii_of_string (NilEmpty.string_of_uint d)) = Z.of_N (Pos.of_uint d).
Proof.
  induction d; [reflexivity| |..].
  - cbn [NilEmpty.string_of_uint list_ascii_of_string Pos.of_uint]. rewrite <- IHd. reflexivity.
  - exact (value_acc d 1).
  - exact (value_acc d 2).
  - exact (value_acc d 3).
  - exact (value_acc d 4).
  - exact (value_acc d 5).
  - exact (value_acc d 6).
  - exact (value_acc d 7).
  - exact (value_acc d 8).
  - exact (value_acc d 9).
Qed.

Lemma pos_to_uint_nonnil p : Pos.to_uint p <> Nil.
Proof.
  intros E. pose proof (DecimalPos.Unsigned.of_to p) as O. rewrite E in O. discriminate O.
Qed.
Lemma nz_string d : d <> Nil -> NilZero.string_of_uint d = NilEmpty.string_of_uint d.
Proof. destruct d; [congruence|reflexivity..]. Qed.

Definition nat_digits (n : N) : chars := list_ascii_of_string (NilEmpty.string_of_uint (N.to_uint n)).
Lemma decimal_nonneg z : 0 <= z -> decimal z = nat_digits (Z.to_N z).
Proof.
  intros H. destruct z as [|p|p]; [reflexivity| |lia].
  unfold decimal, nat_digits. cbn [Z.to_int Z.to_N N.to_uint NilZero.string_of_int].
  rewrite nz_string by apply pos_to_uint_nonnil. reflexivity.
Qed.
Lemma decimal_neg z : z < 0 -> decimal z = "-"%char :: decimal (- z).
Proof.
  intros H. destruct z as [|p|p]; [lia|lia|]. unfold decimal. cbn [Z.opp Z.to_int NilZero.string_of_int].
  reflexivity.
Qed.
Lemma decimal_digits z : 0 <= z -> forallb is_digit (decimal z) = true.
Proof. intros H. rewrite decimal_nonneg by exact H. apply string_of_uint_digits. Qed.
Lemma decimal_nonnil z : decimal z <> [].
Proof.
  destruct z as [|p|p]; unfold decimal; cbn [Z.to_int NilZero.string_of_int]; [discriminate| |discriminate].
  rewrite nz_string by apply pos_to_uint_nonnil. pose proof (pos_to_uint_nonnil p) as N.
  destruct (Pos.to_uint p); [congruence|discriminate..].
Qed.
Lemma decimal_value z : 0 <= z -> digits_value 0 (decimal z) = z.
Proof.
  intros H. rewrite decimal_nonneg by exact H. unfold nat_digits. rewrite value_uint.
  change (Pos.of_uint (N.to_uint (Z.to_N z))) with (N.of_uint (N.to_uint (Z.to_N z))).
  rewrite DecimalN.Unsigned.of_to. apply Z2N.id. exact H.
Qed.
Lemma unsigned_decimal z : 0 <= z -> unsigned_text (decimal z) = Some z.
Proof.
  intros H. unfold unsigned_text. pose proof (decimal_nonnil z) as N. destruct (decimal z) eqn:E; [congruence|].
  rewrite <- E, decimal_digits, decimal_value by exact H. reflexivity.
Qed.
Lemma digit_not c x : is_digit c = true -> is_digit x = false -> Ascii.eqb c x = false.
Proof. intros C X. destruct (Ascii.eqb_spec c x) as [->|]; congruence. Qed.
Lemma int_unsigned s z : unsigned_text s = Some z -> int_text s = Some z.
Proof.
  intros H. destruct s as [|c r]; [discriminate H|]. unfold int_text.
  assert (D : is_digit c = true).
  { unfold unsigned_text in H. destruct (is_digit c) eqn:D; [reflexivity|]. cbn [forallb] in H. rewrite D in H. discriminate H. }
  rewrite (digit_not c "-" D), (digit_not c "+" D) by reflexivity. exact H.
Qed.
(** int(str(z)) = z *)
Theorem int_decimal z : int_text (decimal z) = Some z.
Proof.
  destruct (Z.leb_spec 0 z) as [H|H].
  - apply int_unsigned, unsigned_decimal, H.
  - rewrite decimal_neg by exact H. cbn [int_text Ascii.eqb]. cbn. rewrite unsigned_decimal by lia. cbn. f_equal. lia.
Qed.
Lemma decimal_inj a b : decimal a = decimal b -> a = b.
Proof. intros E. apply (f_equal int_text) in E. rewrite !int_decimal in E. congruence. Qed.

(** Leading zeros *)
Lemma digits_zeros n l : digits_value 0 (repeat "0"%char n ++ l) = digits_value 0 l.
Proof. induction n as [|n IH]; [reflexivity|]. cbn [repeat app]. unfold digits_value in *. cbn [fold_left]. exact IH. Qed.
Lemma value_bound : forall l acc, forallb is_digit l = true -> 0 <= acc ->
  acc * 10 ^ Z.of_nat (List.length l) <= digits_value acc l < (acc + 1) * 10 ^ Z.of_nat (List.length l).
Proof.
  induction l as [|c l IH]; intros acc D A; [cbn; lia|].
  cbn [forallb] in D. apply andb_true_iff in D. destruct D as [D1 D2].
  assert (V : 0 <= digit_value c <= 9).
  { unfold is_digit, in_range in D1. apply andb_true_iff in D1. destruct D1 as [L H]. apply N.leb_le in L, H.
    unfold digit_value. change (N_of_ascii "0") with 48%N in L. change (N_of_ascii "9") with 57%N in H. lia. }
  change (digits_value acc (c :: l)) with (digits_value (10 * acc + digit_value c) l).
  specialize (IH (10 * acc + digit_value c) D2 ltac:(lia)).
  cbn [List.length]. rewrite Nat2Z.inj_succ, Z.pow_succ_r by lia.
  assert (0 <= 10 ^ Z.of_nat (List.length l)) by (apply Z.pow_nonneg; lia). nia.
Qed.

(** No leading zero: the text is as short as possible. *)
Lemma nzhead_head d : match Decimal.nzhead d with D0 _ => False | _ => True end.
Proof. induction d; cbn; auto. Qed.
Lemma decimal_head z : 0 < z -> match decimal z with c :: _ => 1 <= digit_value c | [] => False end.
Proof.
  intros H. rewrite decimal_nonneg by lia. unfold nat_digits.
  assert (U : N.to_uint (Z.to_N z) = Decimal.unorm (N.to_uint (Z.to_N z))).
  { pose proof (DecimalN.Unsigned.to_of (N.to_uint (Z.to_N z))) as T. now rewrite DecimalN.Unsigned.of_to in T. }
  rewrite U. unfold Decimal.unorm. pose proof (nzhead_head (N.to_uint (Z.to_N z))) as NH.
  destruct (Decimal.nzhead (N.to_uint (Z.to_N z))) eqn:E; try (cbn; unfold digit_value; cbn; lia).
  exfalso. unfold Decimal.unorm in U. rewrite E in U.
  assert (O := DecimalN.Unsigned.of_to (Z.to_N z)). rewrite U in O. cbn in O. lia.
Qed.
Lemma decimal_length z k : 0 <= z < 10 ^ Z.of_nat (S k) -> (List.length (decimal z) <= S k)%nat.
Proof.
  intros H. destruct (Z.eq_dec z 0) as [->|NZ]; [cbn; lia|].
  pose proof (decimal_head z ltac:(lia)) as D. pose proof (decimal_digits z ltac:(lia)) as DD.
  pose proof (decimal_value z ltac:(lia)) as V.
  destruct (decimal z) as [|c l]; [contradiction|]. cbn [List.length].
  cbn [forallb] in DD. apply andb_true_iff in DD. destruct DD as [_ DD].
  change (digits_value 0 (c :: l)) with (digits_value (digit_value c) l) in V.
  pose proof (value_bound l (digit_value c) DD ltac:(lia)) as B. rewrite V in B.
  destruct (Nat.le_gt_cases (S (List.length l)) (S k)) as [L|L]; [exact L|exfalso].
  assert (P : 10 ^ Z.of_nat (S k) <= 10 ^ Z.of_nat (List.length l)) by (apply Z.pow_le_mono_r; lia).
  assert (0 < 10 ^ Z.of_nat (List.length l)) by (apply Z.pow_pos_nonneg; lia). nia.
Qed.
Lemma decimal_length_lower z k : 10 ^ Z.of_nat k <= z -> (k < List.length (decimal z))%nat.
Proof.
  intros H. assert (0 < 10 ^ Z.of_nat k) by (apply Z.pow_pos_nonneg; lia).
  pose proof (decimal_digits z ltac:(lia)) as DD. pose proof (decimal_value z ltac:(lia)) as V.
  pose proof (value_bound (decimal z) 0 DD ltac:(lia)) as B. rewrite V in B.
  destruct (Nat.le_gt_cases (List.length (decimal z)) k) as [L|L]; [exfalso|exact L].
  assert (10 ^ Z.of_nat (List.length (decimal z)) <= 10 ^ Z.of_nat k) by (apply Z.pow_le_mono_r; lia). lia.
Qed.
Lemma decimal_length_mono a b : 0 <= a <= b -> (List.length (decimal a) <= List.length (decimal b))%nat.
Proof.
  intros H. destruct (List.length (decimal a)) as [|k] eqn:E; [lia|].
  destruct k as [|k]; [pose proof (decimal_nonnil b); destruct (decimal b); [congruence|cbn; lia]|].
  destruct (Z.ltb_spec a (10 ^ Z.of_nat (S k))) as [L|L].
  - pose proof (decimal_length a k ltac:(lia)). lia.
  - apply decimal_length_lower. lia.
Qed.
