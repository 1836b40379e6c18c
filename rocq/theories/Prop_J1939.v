(** Prop_J1939: properties C28 and C29 of the J1939 helpers. *)
From Verif Require Import Base PyNum Bitstruct J1939 BitsLemmas NodeProofs.
Ltac Zify.zify_post_hook ::= Z.div_mod_to_equations.

(** ** Specification: SAE J1939-21, the layout of a 29 bit identifier. *)
Definition id_number (f : frame_id) : Z :=
  fi_priority f * 2 ^ 26 + fi_reserved f * 2 ^ 25 + fi_data_page f * 2 ^ 24 +
  fi_pdu_format f * 2 ^ 16 + fi_pdu_specific f * 2 ^ 8 + fi_source f.
Definition id_fields_ok (f : frame_id) : Prop :=
  0 <= fi_priority f < 8 /\ 0 <= fi_reserved f < 2 /\ 0 <= fi_data_page f < 2 /\
  0 <= fi_pdu_format f < 256 /\ 0 <= fi_pdu_specific f < 256 /\ 0 <= fi_source f < 256.
Definition pgn_number (g : pgn) : Z :=
  pg_reserved g * 2 ^ 17 + pg_data_page g * 2 ^ 16 + pg_pdu_format g * 2 ^ 8 + pg_pdu_specific g.
Definition pgn_fields_ok (g : pgn) : Prop :=
  0 <= pg_reserved g < 2 /\ 0 <= pg_data_page g < 2 /\ 0 <= pg_pdu_format g < 256 /\
  0 <= pg_pdu_specific g < 256 /\ (pg_pdu_format g < 240 -> pg_pdu_specific g = 0).

(** ** Packing and unpacking *)
Lemma from_be_4 v : 0 <= v < 2 ^ 32 -> from_be (to_be 4 v) = v.
Proof. intros. apply from_be_to_be. cbn; lia. Qed.
Lemma from_be_3 v : 0 <= v < 2 ^ 24 -> from_be (to_be 3 v) = v.
Proof. intros. apply from_be_to_be. cbn; lia. Qed.

Lemma pack29 v : 0 <= v < 2 ^ 29 -> pack_int 29 v = to_be 4 (v * 8).
Proof. intros. reflexivity. Qed.
Lemma pack18 v : 0 <= v < 2 ^ 18 -> pack_int 18 v = to_be 3 (v * 64).
Proof. intros. reflexivity. Qed.

Lemma unpack29 v : 0 <= v < 2 ^ 29 -> bit_unpack1 29 (pack_int 29 v) = Ok v.
Proof.
  intros H. rewrite pack29 by assumption. unfold bit_unpack1, bit_unpack. unfold zlen. rewrite to_be_length.
  cbn -[from_be to_be Z.pow]. rewrite from_be_4 by lia. f_equal. lia.
Qed.
Lemma unpack18 v : 0 <= v < 2 ^ 18 -> bit_unpack1 18 (pack_int 18 v) = Ok v.
Proof.
  intros H. rewrite pack18 by assumption. unfold bit_unpack1, bit_unpack. unfold zlen. rewrite to_be_length.
  cbn -[from_be to_be Z.pow]. rewrite from_be_3 by lia. f_equal. lia.
Qed.

Lemma pack_uns w v : pack_field FUns w (NInt v) = if (0 <=? v) && (v <? 2 ^ w) then Ok v else Err RangeError.
Proof. reflexivity. Qed.

Theorem C28_pack : forall f,
  (id_fields_ok f -> frame_id_pack f = Ok (id_number f) /\ 0 <= id_number f < 2 ^ 29) /\
  (~ id_fields_ok f -> frame_id_pack f = Err CantoolsError).
Proof.
  intros [p r d pf ps sa]. unfold id_fields_ok, frame_id_pack, id_number. cbn [fi_priority fi_reserved fi_data_page fi_pdu_format fi_pdu_specific fi_source].
  unfold frame_widths, bit_pack. cbn [pack_fields fold_right]. rewrite !pack_uns.
  repeat match goal with |- context[(0 <=? ?v) && (?v <? ?b)] => destruct ((0 <=? v) && (v <? b)) eqn:? end; cbn [bind];
  (split; [intros HF|intros HN]); try (exfalso; lia); try reflexivity.
  split; [|lia]. unfold to_error, catch. cbn [bind].
  change (3 + (1 + (1 + (8 + (8 + (8 + 0)))))) with 29. rewrite unpack29; [f_equal; lia|]. lia.
Qed.

Lemma single_pack w v : bit_pack [w] [v] = if (0 <=? v) && (v <? 2 ^ w) then Ok (pack_int w v) else Err RangeError.
Proof.
  unfold bit_pack. cbn [pack_fields fold_right]. rewrite pack_uns. destruct (_ && _); cbn [bind]; [|reflexivity].
  rewrite !Z.add_0_r. change (2 ^ 0) with 1. now rewrite Z.mul_1_r.
Qed.

Theorem C28_unpack : forall id,
  (0 <= id < 2 ^ 29 -> exists f, frame_id_unpack id = Ok f /\ id_fields_ok f /\ id_number f = id) /\
  (~ 0 <= id < 2 ^ 29 -> frame_id_unpack id = Err CantoolsError).
Proof.
  intros id. unfold frame_id_unpack. rewrite single_pack.
  destruct ((0 <=? id) && (id <? 2 ^ 29)) eqn:E; (split; [intros H|intros H]); try (exfalso; lia); [|reflexivity].
  unfold to_error, catch. cbn [bind]. rewrite pack29 by assumption. unfold bit_unpack, zlen. rewrite to_be_length.
  rewrite from_be_4 by lia. unfold frame_widths. cbn [fold_right unpack_fields Z.ltb]. cbn -[Z.pow Z.div Z.modulo Z.mul].
  eexists. split; [reflexivity|]. unfold id_fields_ok, id_number.
  cbn [fi_priority fi_reserved fi_data_page fi_pdu_format fi_pdu_specific fi_source].
  change (8 * 4 - 3) with 29. change (29 - 1) with 28. change (28 - 1) with 27. change (27 - 8) with 19. change (19 - 8) with 11. change (11 - 8) with 3.
  assert (P : 2 ^ 29 = 536870912 /\ 2 ^ 28 = 268435456 /\ 2 ^ 27 = 134217728 /\ 2 ^ 19 = 524288 /\ 2 ^ 11 = 2048 /\ 2 ^ 3 = 8 /\ 2 ^ 1 = 2 /\
    2 ^ 8 = 256 /\ 2 ^ 26 = 67108864 /\ 2 ^ 25 = 33554432 /\ 2 ^ 24 = 16777216 /\ 2 ^ 16 = 65536) by (repeat split; reflexivity).
  destruct P as (-> & -> & -> & -> & -> & -> & -> & -> & -> & -> & -> & ->). change (2 ^ 29) with 536870912 in H. clear E.
  repeat split; lia.
Qed.

(** The two directions are inverse. *)
Theorem C28_inverse :
  (forall f, id_fields_ok f -> (let* id := frame_id_pack f in frame_id_unpack id) = Ok f) /\
  (forall id, 0 <= id < 2 ^ 29 -> (let* f := frame_id_unpack id in frame_id_pack f) = Ok id).
Proof.
  split.
  - intros f Hf. destruct (proj1 (C28_pack f) Hf) as (-> & B). cbn [bind].
    destruct (proj1 (C28_unpack _) B) as (g & -> & G & E). f_equal. destruct f as [a1 a2 a3 a4 a5 a6], g as [b1 b2 b3 b4 b5 b6].
    unfold id_fields_ok, id_number in *. cbn [fi_priority fi_reserved fi_data_page fi_pdu_format fi_pdu_specific fi_source] in *.
    f_equal; lia.
  - intros id Hi. destruct (proj1 (C28_unpack id) Hi) as (f & -> & F & E). cbn [bind].
    destruct (proj1 (C28_pack f) F) as (-> & _). congruence.
Qed.
Example C28_hypotheses : id_fields_ok (mkFrameId 6 0 1 0xfe 0xca 0x21) /\ id_number (mkFrameId 6 0 1 0xfe 0xca 0x21) = 0x19feca21 /\
  ~ id_fields_ok (mkFrameId 8 0 0 0 0 0).
Proof. unfold id_fields_ok, id_number. cbn. lia. Qed.

(** ** C29 *)
Theorem C29_pack : forall g,
  (pgn_fields_ok g -> pgn_pack g = Ok (pgn_number g) /\ 0 <= pgn_number g < 2 ^ 18) /\
  (~ pgn_fields_ok g -> pgn_pack g = Err CantoolsError).
Proof.
  intros [r d pf ps]. unfold pgn_fields_ok, pgn_pack, pgn_number. cbn [pg_reserved pg_data_page pg_pdu_format pg_pdu_specific].
  destruct ((pf <? 240) && negb (ps =? 0)) eqn:E0; [split; [intros; exfalso; lia|reflexivity]|].
  unfold pgn_widths, bit_pack. cbn [pack_fields fold_right]. rewrite !pack_uns.
  repeat match goal with |- context[(0 <=? ?v) && (?v <? ?b)] => destruct ((0 <=? v) && (v <? b)) eqn:? end; cbn [bind];
  (split; [intros HF|intros HN]); try (exfalso; lia); try reflexivity.
  split; [|lia]. unfold to_error, catch. cbn [bind].
  change (1 + (1 + (8 + (8 + 0)))) with 18. rewrite unpack18; [f_equal; lia|]. lia.
Qed.

Theorem C29_unpack : forall n,
  (0 <= n < 2 ^ 18 -> exists g, pgn_unpack n = Ok g /\ pgn_number g = n /\
     0 <= pg_reserved g < 2 /\ 0 <= pg_data_page g < 2 /\ 0 <= pg_pdu_format g < 256 /\ 0 <= pg_pdu_specific g < 256) /\
  (~ 0 <= n < 2 ^ 18 -> pgn_unpack n = Err CantoolsError).
Proof.
  intros n. unfold pgn_unpack. rewrite single_pack.
  destruct ((0 <=? n) && (n <? 2 ^ 18)) eqn:E; (split; [intros H|intros H]); try (exfalso; lia); [|reflexivity].
  unfold to_error, catch. cbn [bind]. rewrite pack18 by assumption. unfold bit_unpack, zlen. rewrite to_be_length.
  rewrite from_be_3 by lia. unfold pgn_widths. cbn [fold_right unpack_fields Z.ltb]. cbn -[Z.pow Z.div Z.modulo Z.mul].
  eexists. split; [reflexivity|]. unfold pgn_number.
  cbn [pg_reserved pg_data_page pg_pdu_format pg_pdu_specific].
  change (8 * 3 - 1) with 23. change (23 - 1) with 22. change (22 - 8) with 14. change (14 - 8) with 6.
  change (2 ^ 23) with 8388608. change (2 ^ 22) with 4194304. change (2 ^ 14) with 16384. change (2 ^ 6) with 64.
  change (2 ^ 1) with 2. change (2 ^ 8) with 256. change (2 ^ 17) with 131072. change (2 ^ 16) with 65536. change (2 ^ 18) with 262144 in *.
  clear E. repeat split; lia.
Qed.

(** Pack and unpack are inverse on the numbers that denote a parameter group: those with PDU specific 0
    below PDU format 240.  Any other number can be unpacked but not packed again. *)
Definition denotes_group (n : Z) : Prop := 0 <= n < 2 ^ 18 /\ (n / 256 mod 256 < 240 -> n mod 256 = 0).
Theorem C29_inverse :
  (forall g, pgn_fields_ok g -> (let* n := pgn_pack g in pgn_unpack n) = Ok g) /\
  (forall n, 0 <= n < 2 ^ 18 -> (let* g := pgn_unpack n in pgn_pack g) =
     if (240 <=? n / 256 mod 256) || (n mod 256 =? 0) then Ok n else Err CantoolsError).
Proof.
  split.
  - intros g Hg. destruct (proj1 (C29_pack g) Hg) as (-> & B). cbn [bind].
    destruct (proj1 (C29_unpack _) B) as (g' & -> & E & G). f_equal. destruct g as [a1 a2 a3 a4], g' as [b1 b2 b3 b4].
    unfold pgn_fields_ok, pgn_number in *. cbn [pg_reserved pg_data_page pg_pdu_format pg_pdu_specific] in *.
    change (2 ^ 17) with 131072 in *. change (2 ^ 16) with 65536 in *. change (2 ^ 8) with 256 in *. f_equal; lia.
  - intros n Hn. destruct (proj1 (C29_unpack n) Hn) as (g & -> & E & G). cbn [bind].
    destruct (C29_pack g) as (P1 & P2). unfold pgn_fields_ok, pgn_number in *.
    assert (F1 : pg_pdu_format g = n / 256 mod 256) by (change (2 ^ 17) with 131072 in *; change (2 ^ 16) with 65536 in *; change (2 ^ 8) with 256 in *; lia).
    assert (F2 : pg_pdu_specific g = n mod 256) by (change (2 ^ 17) with 131072 in *; change (2 ^ 16) with 65536 in *; change (2 ^ 8) with 256 in *; lia).
    rewrite <- F1, <- F2. destruct (_ || _) eqn:C.
    + destruct P1 as (-> & _); [lia|]. congruence.
    + apply P2. lia.
Qed.

(** The group of a frame: defined for every id, without priority and source address, and without the
    destination address for PDU format below 240. *)
Theorem C29_from_frame_id : forall id, 0 <= id < 2 ^ 29 ->
  exists n, pgn_from_frame_id id = Ok n /\ denotes_group n /\
    n = id / 2 ^ 8 mod 2 ^ 18 - (if id / 2 ^ 16 mod 256 <? 240 then id / 2 ^ 8 mod 256 else 0).
Proof.
  intros id H. unfold pgn_from_frame_id. destruct (proj1 (C28_unpack id) H) as (f & -> & F & E). cbn [bind].
  destruct (C29_pack (mkPgn (fi_reserved f) (fi_data_page f) (fi_pdu_format f) (if fi_pdu_format f <? 240 then 0 else fi_pdu_specific f))) as (P & _).
  unfold id_fields_ok, id_number in *. destruct P as (P1 & P2).
  { unfold pgn_fields_ok. cbn [pg_reserved pg_data_page pg_pdu_format pg_pdu_specific]. destruct (fi_pdu_format f <? 240) eqn:?; lia. }
  eexists. split; [exact P1|]. unfold pgn_number, denotes_group in *. cbn [pg_reserved pg_data_page pg_pdu_format pg_pdu_specific] in *.
  change (2 ^ 26) with 67108864 in *. change (2 ^ 25) with 33554432 in *. change (2 ^ 24) with 16777216 in *.
  change (2 ^ 17) with 131072 in *. change (2 ^ 16) with 65536 in *. change (2 ^ 8) with 256 in *. change (2 ^ 18) with 262144 in *.
  assert (EF : id / 65536 mod 256 = fi_pdu_format f) by lia. rewrite EF.
  destruct (fi_pdu_format f <? 240) eqn:C; (split; [split; [lia|]; intros; lia|]; lia).
Qed.
Theorem C29_independent : forall id id', 0 <= id < 2 ^ 29 -> 0 <= id' < 2 ^ 29 ->
  id / 2 ^ 16 mod 2 ^ 10 = id' / 2 ^ 16 mod 2 ^ 10 ->
  (id / 2 ^ 16 mod 256 < 240 \/ id / 2 ^ 8 mod 256 = id' / 2 ^ 8 mod 256) ->
  pgn_from_frame_id id = pgn_from_frame_id id'.
Proof.
  intros id id' H H' E D. destruct (C29_from_frame_id id H) as (n & -> & _ & ->).
  destruct (C29_from_frame_id id' H') as (n' & -> & _ & ->). f_equal.
  change (2 ^ 16) with 65536 in *. change (2 ^ 10) with 1024 in *. change (2 ^ 8) with 256 in *. change (2 ^ 18) with 262144.
  assert (E2 : id' / 65536 mod 256 = id / 65536 mod 256) by lia. rewrite E2.
  destruct (id / 65536 mod 256 <? 240) eqn:C; lia.
Qed.
Example C29_hypotheses : pgn_from_frame_id 0x18ef1234 = Ok 0xef00 /\ pgn_from_frame_id 0x0cefff00 = Ok 0xef00 /\
  pgn_from_frame_id 0x18feca21 = Ok 0xfeca /\ pgn_fields_ok (mkPgn 0 1 0xfe 0xca) /\ ~ pgn_fields_ok (mkPgn 0 1 0xef 0xca) /\
  denotes_group 0xef00 /\ ~ denotes_group 0xef01.
Proof.
  unfold pgn_fields_ok, denotes_group. cbn [pg_reserved pg_data_page pg_pdu_format pg_pdu_specific].
  split; [vm_compute; reflexivity|]. split; [vm_compute; reflexivity|]. split; [vm_compute; reflexivity|]. lia.
Qed.
