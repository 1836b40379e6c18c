(** Prop_Database: properties C24 and C25 of the lookup tables of a database. *)
From Verif Require Import Base PyNum Conversion Signal Formats Message Container Database LayoutSpec CodecSpec
     DictLemmas BitsLemmas NodeProofs Construct CodecThms MsgThms Examples Prop_Codec Prop_Container.
Ltac Zify.zify_post_hook ::= Z.div_mod_to_equations.

(** ** Specification *)
(** The last element with a property. *)
Fixpoint last_such {A} (p : A -> bool) (l : list A) : option A :=
  match l with
  | [] => None
  | x :: r => match last_such p r with Some y => Some y | None => if p x then Some x else None end
  end.

(** Standard ids have 11, extended ids 29 bits (message.py:91-101). *)
Definition id_ok (m : message) : Prop := 0 <= m_frame_id m < (if m_extended m then 2 ^ 29 else 2 ^ 11).
(** The message answers to frame id [id] of the given kind: the ids agree under the mask. *)
Definition answers (mask : Z) (ext : bool) (id : Z) (e : entry) : bool :=
  Bool.eqb (m_extended (e_msg e)) ext && (Z.land (m_frame_id (e_msg e)) mask =? Z.land id mask).

(** Ids above 0x7FF are taken as extended. *)
Definition taken_extended (id : Z) (force : bool) : bool := force || (2047 <? id).

Lemma last_such_ext {A} (p q : A -> bool) l : (forall x, In x l -> p x = q x) -> last_such p l = last_such q l.
Proof.
  induction l as [|x l IH]; [reflexivity|]. intros H. cbn [last_such]. rewrite IH by (intros; apply H; now right).
  rewrite (H x) by now left. reflexivity.
Qed.

Lemma tables ms db : db_messages db = ms ->
  let db' := fold_left add_message ms (mkDatabase (db_messages db) [] [] (db_mask db) (db_strict db)) in
  db_messages db' = ms /\ db_mask db' = db_mask db /\ db_strict db' = db_strict db /\
  (forall n, sget (db_by_name db') n = last_such (fun e => String.eqb (m_name (e_msg e)) n) ms) /\
  (forall k, zget (db_by_id db') k = last_such (fun e => masked_id (db_mask db) (e_msg e) =? k) ms).
Proof.
  intros <-.
  assert (G : forall l d, let d' := fold_left add_message l d in
     db_messages d' = db_messages d /\ db_mask d' = db_mask d /\ db_strict d' = db_strict d /\
     (forall n, sget (db_by_name d') n = match last_such (fun e => String.eqb (m_name (e_msg e)) n) l with
                                         | Some e => Some e | None => sget (db_by_name d) n end) /\
     (forall k, zget (db_by_id d') k = match last_such (fun e => masked_id (db_mask d) (e_msg e) =? k) l with
                                       | Some e => Some e | None => zget (db_by_id d) k end)).
  { induction l as [|e l IH]; intros d; cbn [fold_left].
    - cbn. repeat split; reflexivity.
    - destruct (IH (add_message d e)) as (I1 & I2 & I3 & I4 & I5). cbv zeta in *.
      split; [exact I1|]. split; [exact I2|]. split; [exact I3|]. split.
      + intros n. rewrite I4. cbn [last_such add_message db_by_name]. destruct (last_such _ l); [reflexivity|].
        rewrite (get_set _ sspec). now destruct (String.eqb (m_name (e_msg e)) n).
      + intros k. rewrite I5. cbn [last_such add_message db_by_id db_mask]. destruct (last_such _ l); [reflexivity|].
        rewrite (get_set _ zspec). now destruct (masked_id (db_mask d) (e_msg e) =? k). }
  cbv zeta. destruct (G (db_messages db) (mkDatabase (db_messages db) [] [] (db_mask db) (db_strict db))) as (I1 & I2 & I3 & I4 & I5).
  cbv zeta in *. cbn [db_messages db_mask db_strict db_by_name db_by_id] in *.
  repeat (split; [assumption|]). split.
  - intros n. rewrite I4. cbn. now destruct (last_such _ _).
  - intros k. rewrite I5. cbn. now destruct (last_such _ _).
Qed.

(** What [refresh] keeps of a message. *)
Definition same_message (e e' : entry) : Prop :=
  m_name (e_msg e) = m_name (e_msg e') /\ m_frame_id (e_msg e) = m_frame_id (e_msg e') /\
  m_extended (e_msg e) = m_extended (e_msg e') /\ m_signals (e_msg e) = m_signals (e_msg e') /\
  m_length (e_msg e) = m_length (e_msg e') /\ m_unused (e_msg e) = m_unused (e_msg e') /\
  e_contained e = e_contained e' /\ e_big_header e = e_big_header e'.

Lemma refresh_same strict e e' : refresh_entry strict e = Ok e' -> same_message e e'.
Proof.
  unfold refresh_entry, refresh_message. intros H. apply bind_ok in H. destruct H as (m & H & E).
  apply bind_ok in H. destruct H as ([c t] & _ & H). apply Ok_inj in H, E. subst. repeat split.
Qed.

Lemma refresh_db_spec db db' : refresh_db db = Ok db' ->
  Forall2 same_message (db_messages db) (db_messages db') /\ db_mask db' = db_mask db /\ db_strict db' = db_strict db /\
  (forall n, sget (db_by_name db') n = last_such (fun e => String.eqb (m_name (e_msg e)) n) (db_messages db')) /\
  (forall k, zget (db_by_id db') k = last_such (fun e => masked_id (db_mask db) (e_msg e) =? k) (db_messages db')).
Proof.
  unfold refresh_db. intros H. apply bind_ok in H. destruct H as (ms & H1 & H2). apply Ok_inj in H2. subst db'.
  destruct (tables ms (mkDatabase ms [] [] (db_mask db) (db_strict db)) eq_refl) as (I1 & I2 & I3 & I4 & I5).
  cbv zeta in *. cbn [db_messages db_mask db_strict] in *. rewrite I1. split; [|auto].
  apply mapM_ok in H1. clear - H1. induction H1; constructor; eauto using refresh_same.
Qed.

(** A database after its construction and any number of additions. *)
Inductive reachable (mask : option Z) (strict : bool) : list entry -> database -> Prop :=
| reach_new : forall ms db, new_database ms mask strict = Ok db -> reachable mask strict ms db
| reach_add : forall given db ms db', reachable mask strict given db -> add_messages db ms = Ok db' ->
    reachable mask strict (given ++ ms) db'.

Definition mask_of (mask : option Z) : Z := match mask with Some x => x | None => 2 ^ 32 - 1 end.

Lemma same_trans a b c : same_message a b -> same_message b c -> same_message a c.
Proof. unfold same_message. intuition congruence. Qed.
Lemma Forall2_same_trans l1 l2 l3 : Forall2 same_message l1 l2 -> Forall2 same_message l2 l3 -> Forall2 same_message l1 l3.
Proof.
  intros H. revert l3. induction H; intros l3 H3; inversion H3; subst; constructor; eauto using same_trans.
Qed.
Lemma Forall2_same_refl l : Forall2 same_message l l.
Proof. induction l; constructor; auto. repeat split. Qed.

Lemma reachable_spec mask strict given db : reachable mask strict given db ->
  Forall2 same_message given (db_messages db) /\ db_mask db = mask_of mask /\ db_strict db = strict /\
  (forall n, sget (db_by_name db) n = last_such (fun e => String.eqb (m_name (e_msg e)) n) (db_messages db)) /\
  (forall k, zget (db_by_id db) k = last_such (fun e => masked_id (mask_of mask) (e_msg e) =? k) (db_messages db)).
Proof.
  induction 1 as [ms db H|given db ms db' R IH H].
  - apply refresh_db_spec in H. cbn [db_messages db_mask db_strict] in H. destruct H as (I1 & I2 & I3 & I4 & I5).
    split; [assumption|]. split; [rewrite I2; now destruct mask|]. split; [assumption|]. split; [assumption|].
    intros k. rewrite I5. now destruct mask.
  - destruct IH as (J1 & J2 & J3 & J4 & J5). apply refresh_db_spec in H. cbn [db_messages db_mask db_strict] in H.
    destruct H as (I1 & I2 & I3 & I4 & I5). rewrite J2 in *.
    split; [|split; [assumption|split; [congruence|auto]]].
    eapply Forall2_same_trans; [|exact I1]. apply Forall2_app; [assumption|apply Forall2_same_refl].
Qed.

(** Bit 31 separates the two kinds of ids. *)
Lemma bit31_low a : 0 <= a < 2 ^ 31 -> Z.testbit a 31 = false.
Proof. intros. apply Z.testbit_false; [lia|]. rewrite Z.div_small by lia. reflexivity. Qed.
Lemma land_low a m : 0 <= a < 2 ^ 31 -> 0 <= Z.land a m < 2 ^ 31.
Proof.
  intros H. split; [apply Z.land_nonneg; lia|].
  destruct (Z.eq_dec (Z.land a m) 0) as [->|N]; [lia|]. apply Z.log2_lt_pow2; [|].
  - assert (0 <= Z.land a m) by (apply Z.land_nonneg; lia). lia.
  - assert (a <> 0) by (intros ->; now rewrite Z.land_0_l in N).
    destruct (Z.log2_spec (Z.land a m)) as [L _]; [assert (0 <= Z.land a m) by (apply Z.land_nonneg; lia); lia|].
    assert (T : Z.testbit (Z.land a m) (Z.log2 (Z.land a m)) = true).
    { apply Z.bit_log2. assert (0 <= Z.land a m) by (apply Z.land_nonneg; lia). lia. }
    rewrite Z.land_spec in T. apply andb_true_iff in T. destruct T as [T _].
    destruct (Z.lt_ge_cases (Z.log2 (Z.land a m)) 31) as [|GE]; [assumption|]. exfalso.
    assert (Z.testbit a (Z.log2 (Z.land a m)) = false); [|congruence].
    apply Z.bits_above_log2; [lia|]. apply Z.lt_le_trans with 31; [|lia]. apply Z.log2_lt_pow2; lia.
Qed.

Lemma land_lor_bit31 a m : Z.land (Z.lor a 0x80000000) (Z.lor 0x80000000 m) = Z.lor (Z.land a m) 0x80000000.
Proof.
  apply Z.bits_inj'. intros n Hn. rewrite Z.land_spec, !Z.lor_spec, Z.land_spec.
  destruct (Z.testbit a n), (Z.testbit 0x80000000 n), (Z.testbit m n); reflexivity.
Qed.
Lemma lor_bit31_inj a b : 0 <= a < 2 ^ 31 -> 0 <= b < 2 ^ 31 -> Z.lor a 0x80000000 = Z.lor b 0x80000000 -> a = b.
Proof.
  intros Ha Hb E. apply Z.bits_inj'. intros n Hn.
  assert (E' : Z.testbit (Z.lor a (2 ^ 31)) n = Z.testbit (Z.lor b (2 ^ 31)) n) by (change (2 ^ 31) with 0x80000000; now rewrite E).
  rewrite !Z.lor_spec, Z.pow2_bits_eqb in E' by lia.
  destruct (Z.eqb_spec 31 n) as [<-|N]; [now rewrite !bit31_low|]. now rewrite !orb_false_r in E'.
Qed.
Lemma lor_bit31_ne a b : 0 <= a < 2 ^ 31 -> Z.lor b 0x80000000 <> a.
Proof.
  intros Ha E. assert (T : Z.testbit (Z.lor b (2 ^ 31)) 31 = Z.testbit a 31) by (change (2 ^ 31) with 0x80000000; now rewrite E).
  rewrite Z.lor_spec, Z.pow2_bits_true, orb_true_r, bit31_low in T by lia. discriminate.
Qed.
Lemma land_plain a m : 0 <= a < 2 ^ 31 -> Z.land a (Z.lor 0x80000000 m) = Z.land a m.
Proof.
  intros H. rewrite Z.land_lor_distr_r.
  replace (Z.land a 0x80000000) with 0; [apply Z.lor_0_l|]. symmetry. apply Z.bits_inj'. intros n Hn.
  change 0x80000000 with (2 ^ 31). rewrite Z.land_spec, Z.pow2_bits_eqb, Z.bits_0 by lia.
  destruct (Z.eqb_spec 31 n) as [<-|]; [now rewrite bit31_low|apply andb_false_r].
Qed.

Lemma id_ok_range m : id_ok m -> 0 <= m_frame_id m < 2 ^ 31.
Proof. unfold id_ok. destruct (m_extended m); lia. Qed.

(** The key under which a message is stored matches the looked up key exactly when it answers. *)
Lemma key_answers mask e id force : id_ok (e_msg e) -> 0 <= id < 2 ^ 31 ->
  (masked_id mask (e_msg e) =? Z.land (extend_id id force) (Z.lor 0x80000000 mask)) =
  answers mask (taken_extended id force) id e.
Proof.
  intros He Hi. apply id_ok_range in He. unfold masked_id, extend_id, answers, taken_extended. cbv zeta.
  change 0x7FF with 2047. destruct (force || (2047 <? id)) eqn:F.
  - rewrite land_lor_bit31. destruct (m_extended (e_msg e)); cbn [Bool.eqb andb].
    + destruct (Z.eqb_spec (Z.land (m_frame_id (e_msg e)) mask) (Z.land id mask)) as [->|N]; [apply Z.eqb_refl|].
      apply Z.eqb_neq. intros E. apply lor_bit31_inj in E; auto using land_low.
    + apply Z.eqb_neq. intros E. symmetry in E. revert E. apply lor_bit31_ne. now apply land_low.
  - rewrite land_plain by assumption. destruct (m_extended (e_msg e)); cbn [Bool.eqb andb].
    + apply Z.eqb_neq. apply lor_bit31_ne. now apply land_low.
    + reflexivity.
Qed.

Definition found (o : option entry) : result entry := match o with Some e => Ok e | None => Err KeyError end.

Lemma ids_ok_kept given db : Forall2 same_message given db -> Forall (fun e => id_ok (e_msg e)) given ->
  Forall (fun e => id_ok (e_msg e)) db.
Proof.
  induction 1 as [|e e' l l' S F IH]; intros H; inversion H; subst; constructor; auto.
  destruct S as (_ & S1 & S2 & _). unfold id_ok in *. now rewrite <- S1, <- S2.
Qed.

(** ** C24 *)
(** Lookups find the message added last among those with the requested name, or among those of the
    requested kind whose id agrees under the mask.  A standard and an extended message never
    shadow each other.  Everything else is a KeyError, and additions never lose a message. *)
Theorem C24_lookup : forall mask strict given db, reachable mask strict given db ->
  Forall2 same_message given (db_messages db) /\
  (forall n, get_message_by_name db n =
     found (last_such (fun e => String.eqb (m_name (e_msg e)) n) (db_messages db))) /\
  (Forall (fun e => id_ok (e_msg e)) given -> forall id force, 0 <= id < 2 ^ 31 ->
     get_message_by_frame_id db id force =
     found (last_such (answers (mask_of mask) (taken_extended id force) id) (db_messages db))).
Proof.
  intros mask strict given db R. apply reachable_spec in R. destruct R as (R1 & R2 & _ & R4 & R5).
  split; [assumption|]. split.
  - intros n. unfold get_message_by_name, sget_exn. now rewrite R4.
  - intros H id force Hi. unfold get_message_by_frame_id, zget_exn. rewrite R5, R2.
    rewrite (last_such_ext _ (answers (mask_of mask) (taken_extended id force) id)); [reflexivity|].
    intros e He. apply key_answers; [|assumption].
    pose proof (ids_ok_kept _ _ R1 H) as K. rewrite Forall_forall in K. now apply K.
Qed.

(** Adding messages that do not answer leaves a lookup as it was, and a found message has what was asked for. *)
Theorem C24_by_name_hit : forall mask strict given db n e, reachable mask strict given db ->
  get_message_by_name db n = Ok e -> In e (db_messages db) /\ m_name (e_msg e) = n.
Proof.
  intros mask strict given db n e R H. rewrite (proj1 (proj2 (C24_lookup _ _ _ _ R))) in H.
  assert (G : forall l, last_such (fun e => String.eqb (m_name (e_msg e)) n) l = Some e -> In e l /\ m_name (e_msg e) = n).
  { induction l as [|x l IH]; cbn; [discriminate|]. destruct (last_such _ l) as [y|].
    - intros [= ->]. destruct (IH eq_refl). auto.
    - destruct (String.eqb_spec (m_name (e_msg x)) n); [|discriminate]. intros [= <-]. auto. }
  apply G. unfold found in H. destruct (last_such _ _); [|discriminate]. apply Ok_inj in H. now subst.
Qed.

(** Every message that can be constructed has a frame id of its kind. *)
Lemma built_id_ok : forall fid ext name len unused sigs strict sort m,
  mk_message fid ext name len unused sigs strict sort = Ok m -> 0 <= fid -> id_ok m.
Proof.
  intros * H P. apply mk_message_basic in H. destruct H as (F & _ & _ & _ & E1 & E2 & _).
  unfold id_ok, frame_id_ok in *. rewrite E1, E2. cbv zeta in F. destruct ext; lia.
Qed.

(** An extended message whose id fits eleven bits is only found when told so. *)
Definition flat_entry : entry := mkEntry flat_msg true [].
Definition ex_entry : entry := mkEntry ex_msg true [].
Theorem C24_small_extended_refuted : exists db m, new_database [flat_entry] None true = Ok db /\ db_messages db = [m] /\
  id_ok (e_msg m) /\ m_extended (e_msg m) = true /\
  get_message_by_frame_id db (m_frame_id (e_msg m)) false = Err KeyError /\
  get_message_by_frame_id db (m_frame_id (e_msg m)) true = Ok m.
Proof.
  eexists _, _. split; [vm_compute; reflexivity|]. split; [vm_compute; reflexivity|].
  split; [vm_compute; split; congruence|]. split; [vm_compute; reflexivity|]. split; vm_compute; reflexivity.
Qed.

(** A database built in two steps; the second message with the id of the first takes its place, the
    extended one does not. *)
Definition ex_entry2 : entry := mkEntry (mkMessage 0x523 false "Other" (m_length ex_msg) 0 (m_signals ex_msg) true (m_codec ex_msg) (m_tree ex_msg)) true [].
Example C24_hypotheses : exists db1 db2, new_database [ex_entry; flat_entry] (Some 0x3ff) true = Ok db1 /\
  add_messages db1 [ex_entry2] = Ok db2 /\ reachable (Some 0x3ff) true ([ex_entry; flat_entry] ++ [ex_entry2]) db2 /\
  Forall (fun e => id_ok (e_msg e)) ([ex_entry; flat_entry] ++ [ex_entry2]) /\
  (exists e, get_message_by_frame_id db1 291 false = Ok e /\ m_name (e_msg e) = "Ex"%string) /\
  (exists e, get_message_by_frame_id db2 291 false = Ok e /\ m_name (e_msg e) = "Other"%string) /\
  (exists e, get_message_by_frame_id db2 0x400 false = Err KeyError /\ get_message_by_frame_id db2 5 true = Ok e /\
     m_name (e_msg e) = "Flat"%string).
Proof.
  destruct (new_database [ex_entry; flat_entry] (Some 0x3ff) true) as [db1|] eqn:E1; [|vm_compute in E1; discriminate E1].
  destruct (add_messages db1 [ex_entry2]) as [db2|] eqn:E2;
    [|exfalso; vm_compute in E1; apply Ok_inj in E1; subst db1; vm_compute in E2; discriminate E2].
  exists db1, db2. split; [reflexivity|]. split; [exact E2|].
  split; [eapply reach_add; [apply reach_new; exact E1|exact E2]|].
  split; [repeat (constructor; [vm_compute; split; congruence|]); constructor|].
  vm_compute in E1. apply Ok_inj in E1. subst db1. vm_compute in E2. apply Ok_inj in E2. subst db2.
  split; [eexists; split; vm_compute; reflexivity|]. split; [eexists; split; vm_compute; reflexivity|].
  eexists. split; [vm_compute; reflexivity|]. split; vm_compute; reflexivity.
Qed.

(** ** C25 *)
(** The id has no bits outside the mask. *)
Definition covered (mask id : Z) : Prop := Z.land id mask = id.

(** For such ids encode_message and decode_message use the message that get_message_by_frame_id
    returns ... *)
Theorem C25_covered_ids : forall mask strict given db id force, reachable mask strict given db ->
  0 <= id < 2 ^ 31 -> covered (mask_of mask) id ->
  (forall i scaling padding st, encode_message db (KId id) i scaling padding st force =
     (let* e := get_message_by_frame_id db id force in entry_encode e i scaling padding st)) /\
  (forall data dc sc cont at_, decode_message db (KId id) data dc sc cont at_ force =
     (let* e := get_message_by_frame_id db id force in entry_decode e data dc sc cont at_ true)).
Proof.
  intros mask strict given db id force R Hi C.
  assert (E : find_message db (KId id) force = get_message_by_frame_id db id force).
  { apply reachable_spec in R. destruct R as (_ & R2 & _). unfold find_message, get_message_by_frame_id, extend_id.
    rewrite R2. destruct (force || (0x7FF <? id)).
    - now rewrite land_lor_bit31, C.
    - now rewrite land_plain, C. }
  split; intros; unfold encode_message, decode_message; now rewrite E.
Qed.

(** ... and for all others they raise KeyError, whatever the database contains. *)
Theorem C25_uncovered_ids : forall mask strict given db id force, reachable mask strict given db ->
  Forall (fun e => id_ok (e_msg e)) given -> 0 <= id < 2 ^ 31 -> ~ covered (mask_of mask) id ->
  (forall i scaling padding st, encode_message db (KId id) i scaling padding st force = Err KeyError) /\
  (forall data dc sc cont at_, decode_message db (KId id) data dc sc cont at_ force = Err KeyError).
Proof.
  intros mask strict given db id force R G Hi C.
  assert (E : find_message db (KId id) force = Err KeyError).
  { apply reachable_spec in R. destruct R as (R1 & _ & _ & _ & R5). unfold find_message, zget_exn. rewrite R5.
    pose proof (ids_ok_kept _ _ R1 G) as K.
    assert (N : last_such (fun e => masked_id (mask_of mask) (e_msg e) =? extend_id id force) (db_messages db) = None);
      [|now rewrite N].
    revert K. generalize (db_messages db). induction l as [|e l IH]; intros K; [reflexivity|]. cbn [last_such].
    inversion K as [|? ? Ke Kl]; subst. rewrite IH by assumption. apply id_ok_range in Ke.
    destruct (Z.eqb_spec (masked_id (mask_of mask) (e_msg e)) (extend_id id force)) as [E|]; [exfalso|reflexivity].
    unfold masked_id, extend_id in E. cbv zeta in E. apply C. unfold covered.
    assert (L : Z.land (m_frame_id (e_msg e)) (mask_of mask) = id -> Z.land id (mask_of mask) = id).
    { intros <-. now rewrite <- Z.land_assoc, Z.land_diag. }
    apply L. destruct (m_extended (e_msg e)), (force || (0x7FF <? id)).
    - apply lor_bit31_inj in E; auto using land_low.
    - exfalso. revert E. now apply lor_bit31_ne.
    - exfalso. symmetry in E. revert E. apply lor_bit31_ne. now apply land_low.
    - assumption. }
  split; intros; unfold encode_message, decode_message; now rewrite E.
Qed.

(** Without a mask (or a mask of at least 29 bits) the two always agree. *)
Theorem C25_without_mask : forall strict given db id force, reachable None strict given db -> 0 <= id < 2 ^ 31 ->
  (forall i scaling padding st, encode_message db (KId id) i scaling padding st force =
     (let* e := get_message_by_frame_id db id force in entry_encode e i scaling padding st)) /\
  (forall data dc sc cont at_, decode_message db (KId id) data dc sc cont at_ force =
     (let* e := get_message_by_frame_id db id force in entry_decode e data dc sc cont at_ true)).
Proof.
  intros strict given db id force R Hi. apply (C25_covered_ids None strict given); auto.
  unfold covered, mask_of. change (2 ^ 32 - 1) with (Z.ones 32). rewrite Z.land_ones by lia. apply Z.mod_small. lia.
Qed.

(** So the claim fails for a database with a mask: a message with id 0x523 under mask 0x3ff is found
    by get_message_by_frame_id but can be neither encoded nor decoded by its own id. *)
Theorem C25_mask_refuted : exists db e, new_database [ex_entry2] (Some 0x3ff) true = Ok db /\
  get_message_by_frame_id db 0x523 false = Ok e /\
  (exists out, entry_decode e ex_bytes true true false false true = Ok out) /\
  (forall dc sc cont at_ force, decode_message db (KId 0x523) ex_bytes dc sc cont at_ force = Err KeyError).
Proof.
  destruct (new_database [ex_entry2] (Some 0x3ff) true) as [db|] eqn:E1; [|vm_compute in E1; discriminate E1].
  destruct (get_message_by_frame_id db 0x523 false) as [e|] eqn:E2;
    [|exfalso; vm_compute in E1; apply Ok_inj in E1; subst db; vm_compute in E2; discriminate E2].
  exists db, e. split; [reflexivity|]. split; [exact E2|]. split.
  - vm_compute in E1. apply Ok_inj in E1. subst db. vm_compute in E2. apply Ok_inj in E2. subst e.
    eexists. vm_compute. reflexivity.
  - intros. eapply (C25_uncovered_ids (Some 0x3ff) true [ex_entry2] db 0x523 force).
    + now apply reach_new.
    + repeat (constructor; [vm_compute; split; congruence|]); constructor.
    + lia.
    + intros C. vm_compute in C. discriminate C.
Qed.
Example C25_hypotheses : exists db, reachable (Some 0x3ff) true [ex_entry2] db /\ covered 0x3ff 0x123 /\ ~ covered 0x3ff 0x523 /\
  (exists e, get_message_by_frame_id db 0x123 false = Ok e).
Proof.
  destruct (new_database [ex_entry2] (Some 0x3ff) true) as [db|] eqn:E1; [|vm_compute in E1; discriminate E1].
  exists db. split; [now apply reach_new|]. split; [reflexivity|]. split; [intros C; vm_compute in C; discriminate C|].
  vm_compute in E1. apply Ok_inj in E1. subst db. eexists. vm_compute. reflexivity.
Qed.
