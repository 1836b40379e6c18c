(** Prop_DecodeErr: C65, decoding fails with DecodeError and nothing else. *)
From Coq Require Import Reals Lra Floats.SpecFloat.
From Flocq Require Import Core.
From Verif Require Import Base PyNum Conversion Signal Bitstruct Formats Message Container Database LayoutSpec CodecSpec
     DictLemmas BitsLemmas NodeProofs TreeProofs MsgProofs Construct CodecThms RoundTrip Examples FloatReal DecodeErr Prop_Container.
Local Open Scope Z_scope.

(** A number that can be used in floating point. *)
Definition small (n : num) : Prop := match n with NInt z => Z.abs z <= 2 ^ 400 | NFlt _ => True end.
(** An ordinary signal: at most 64 bytes, scale and offset of moderate size, no value table for a float; a multiplexer is an unscaled integer. *)
Definition ordinary (s : signal) : Prop :=
  s_length s <= 512 /\
  exists scale offset ch fl, factory scale offset ch fl = Ok (s_conv s) /\ small scale /\ small offset /\ (fl = true -> ch = None) /\
    (s_is_mux s = true -> fl = false /\ scale = NInt 1 /\ offset = NInt 0).

Lemma int_float z : Z.abs z <= 2 ^ 1000 -> exists f, float_of_Z z = Ok f.
Proof.
  intros H. destruct (float_of_Z_real z) as (f & F & _); [|eauto]. apply rnd_bounded. rewrite <- abs_IZR. change (bpow radix2 1000) with (IZR (2 ^ 1000)). now apply IZR_le.
Qed.
Lemma mul_add a s o : small s -> small o -> match a with NInt z => Z.abs z <= 2 ^ 512 | NFlt _ => True end ->
  exists v, (let* p := py_mul a s in py_add p o) = Ok v.
Proof.
  intros S O A.
  assert (P1 : 2 ^ 400 <= 2 ^ 1000) by (apply Z.pow_le_mono_r; lia). assert (P2 : 2 ^ 512 <= 2 ^ 1000) by (apply Z.pow_le_mono_r; lia).
  assert (TF : forall n, match n with NInt z => Z.abs z <= 2 ^ 1000 | NFlt _ => True end -> exists f, to_float n = Ok f) by (intros [z|f] B; [now apply int_float|cbn; eauto]).
  destruct (TF a) as [fa Ea]; [destruct a; [lia|exact I]|]. destruct (TF s) as [fs Es]; [destruct s; cbn in S; [lia|exact I]|]. destruct (TF o) as [fo Eo]; [destruct o; cbn in O; [lia|exact I]|].
  assert (FLT : forall g, exists v, py_add (NFlt g) o = Ok v) by (intros g; unfold py_add, py_arith; rewrite Eo; destruct o; cbn [to_float bind]; eauto).
  unfold py_mul, py_arith at 1. destruct a as [z|f]; [|rewrite Es; cbn [to_float bind]; apply FLT]. destruct s as [k|k]; [|rewrite Ea, Es; cbn [bind]; apply FLT].
  cbn [bind]. unfold py_add, py_arith. destruct o as [y|y]; [eauto|]. cbn in S, O. destruct (TF (NInt (z * k))) as [g G].
  { rewrite Z.abs_mul. apply Z.le_trans with (2 ^ 512 * 2 ^ 400); [apply Z.mul_le_mono_nonneg; lia|]. rewrite <- Z.pow_add_r by lia. apply Z.pow_le_mono_r; lia. }
  rewrite G. cbn [to_float bind]. eauto.
Qed.

Lemma ordinary_inner s : ordinary s -> forall raw, match raw with NInt z => Z.abs z <= 2 ^ 512 | NFlt _ => conv_is_float (s_conv s) = true end ->
  forall dc, exists v, raw_to_scaled (s_conv s) raw dc = Ok v.
Proof.
  intros (_ & scale & offset & ch & fl & F & S & O & T & _) raw R dc. unfold factory in F. destruct (num_factory scale offset fl) as [n|] eqn:N; [|discriminate]. cbn [bind] in F.
  assert (FL : nc_is_float n = fl).
  { unfold num_factory in N. destruct (py_eq scale (NInt 1) && py_eq offset (NInt 0)); [apply Ok_inj in N; now subst n|].
    destruct (is_integer scale && is_integer offset && negb fl) eqn:E; [|apply Ok_inj in N; now subst n].
    apply andb_true_iff in E. destruct E as [_ E]. apply negb_true_iff in E. destruct (py_int scale); [|discriminate]. cbn [bind] in N. destruct (py_int offset); [|discriminate]. cbn [bind] in N. apply Ok_inj in N. now subst n. }
  assert (R' : match raw with NInt z => Z.abs z <= 2 ^ 512 | NFlt _ => fl = true end).
  { destruct raw; [exact R|]. destruct ch; apply Ok_inj in F; rewrite <- F in R; cbn [conv_is_float] in R; congruence. }
  assert (NC : exists v, nc_raw_to_scaled n raw = Ok v).
  { unfold num_factory in N. destruct (py_eq scale (NInt 1) && py_eq offset (NInt 0)); [apply Ok_inj in N; subst n; cbn; eauto|].
    destruct (is_integer scale && is_integer offset && negb fl) eqn:E.
    - apply andb_true_iff in E. destruct E as [_ E]. apply negb_true_iff in E. destruct (py_int scale) as [a|]; [|discriminate]. cbn [bind] in N. destruct (py_int offset) as [b|]; [|discriminate]. cbn [bind] in N. apply Ok_inj in N. subst n.
      destruct raw as [z|]; [cbn; eauto|congruence].
    - apply Ok_inj in N. subst n. cbn [nc_raw_to_scaled]. apply mul_add; auto. destruct raw; [exact R|exact I]. }
  destruct NC as [v V]. destruct ch as [ch|]; apply Ok_inj in F; rewrite <- F; cbn [raw_to_scaled].
  - destruct raw as [z|f]; [|specialize (T R'); discriminate]. destruct dc; cbn [py_int bind].
    + destruct (zget ch z); [eauto|]. rewrite V. cbn [bind]. eauto.
    + rewrite V. cbn [bind]. eauto.
  - rewrite V. cbn [bind]. eauto.
Qed.
Lemma ordinary_value s data dc sc : 0 < s_length s -> ordinary s -> exists v, decode_signal_value s (read_raw data s) dc sc = Ok v.
Proof.
  intros L C. unfold decode_signal_value. destruct sc.
  - apply ordinary_inner; [exact C|]. unfold read_raw. destruct (conv_is_float (s_conv s)) eqn:E; [exact eq_refl|].
    destruct C as [C _]. pose proof (read_int_fits data s L) as F. unfold int_fits in F.
    assert (P : 2 ^ s_length s <= 2 ^ 512) by (apply Z.pow_le_mono_r; lia). assert (P2 : 2 ^ (s_length s - 1) <= 2 ^ 512) by (apply Z.pow_le_mono_r; lia).
    destruct (s_signed s); lia.
  - destruct (if dc then conv_choices (s_conv s) else None) as [ch|]; [|eauto]. destruct (choices_lookup ch (read_raw data s)); eauto.
Qed.
Lemma label_found ch z c : In (z, c) ch -> exists k, label_number ch (choice_str c) = Some k.
Proof.
  induction ch as [|[y d] ch IH]; intros []; cbn [label_number].
  - injection H as -> ->. destruct (label_number ch (choice_str c)); [eauto|]. rewrite String.eqb_refl. eauto.
  - destruct (IH H) as [k ->]. eauto.
Qed.
Lemma ordinary_mux all s data dc sc v : names_unique all -> In s all -> built_conv (s_conv s) -> ordinary s -> s_is_mux s = true ->
  decode_signal_value s (read_raw data s) dc sc = Ok v -> exists z, get_mux_number all [(s_name s, v)] (s_name s) = Ok z.
Proof.
  intros U I B C M H.
  assert (G : sget [(s_name s, v)] (s_name s) = Some v) by (cbn; now rewrite String.eqb_refl).
  pose proof (mux_number_spec all [(s_name s, v)] s v U I B G) as SP. destruct (get_mux_number all [(s_name s, v)] (s_name s)) as [z|]; [eauto|]. exfalso.
  destruct C as (_ & scale & offset & ch & fl & F & _ & _ & _ & MX). destruct (MX M) as (-> & -> & ->). unfold factory in F. cbn in F.
  assert (FL : conv_is_float (s_conv s) = false) by (destruct ch; apply Ok_inj in F; rewrite <- F; reflexivity).
  unfold decode_signal_value, read_raw in H. rewrite FL in H.
  assert (V : (exists z, v = VNum (NInt z)) \/ exists cs z c, ch = Some cs /\ In (z, c) cs /\ v = choice_value c).
  { destruct ch as [cs|]; apply Ok_inj in F; rewrite <- F in H; cbn [raw_to_scaled conv_choices] in H.
    - destruct sc.
      + destruct dc; cbn [py_int bind nc_raw_to_scaled] in H; [|left; injection H as <-; eauto].
        destruct (zget cs (read_int data s)) as [c|] eqn:E; injection H as <-; [|left; eauto]. right. apply (get_in _ zspec) in E. exists cs, (read_int data s), c. auto.
      + destruct dc; [|left; injection H as <-; eauto]. cbn [choices_lookup] in H. destruct (zget cs (read_int data s)) as [c|] eqn:E; injection H as <-; [|left; eauto].
        right. apply (get_in _ zspec) in E. exists cs, (read_int data s), c. auto.
    - destruct sc; cbn [nc_raw_to_scaled bind] in H; [left; injection H as <-; eauto|]. destruct dc; left; injection H as <-; eauto. }
  destruct V as [[z ->]|(cs & z & c & -> & IN & ->)]; [cbn in SP; discriminate|].
  destruct (label_found cs z c IN) as [k K]. unfold selector in SP. apply Ok_inj in F. rewrite <- F in SP. cbn [conv_choices] in SP. destruct c; cbn [choice_value choice_str] in *; congruence.
Qed.

(** The message decoders raise DecodeError or nothing. *)
Theorem C65_message m data dc sc allow_truncated allow_excess e : strict_message m -> Forall ordinary (m_signals m) -> bytes_ok data ->
  decode m data dc sc allow_truncated allow_excess = Err e -> e = DecodeError.
Proof.
  intros SM CS BO. destruct (strict_message_ok m SM) as [OK BC]. rewrite Forall_forall in CS. unfold decode.
  destruct (fit_data data (m_length m) allow_truncated allow_excess) as [pd|e'] eqn:FD.
  - apply (decode_node_err (m_signals m) (m_length m) data dc sc allow_truncated allow_excess pd None None (m_codec m)); try apply OK; try assumption.
    + intros s I. apply ordinary_value; [now apply OK|now apply CS].
    + intros s v I. apply ordinary_mux; try apply OK; auto.
  - apply fit_data_err in FD as E. subst e'. assert (COK := mo_cok _ OK). destruct (m_codec m) as [sigs fm muxes]. inversion COK; subst.
    rewrite decode_node_eq, decode_data_eq by assumption. rewrite FD. cbn. congruence.
Qed.

(** Containers: the ids of the contained messages differ. *)
Definition ordinary_container (c : container) : Prop :=
  ids_listed_once c /\ Forall (fun x => strict_message (ct_msg x) /\ Forall ordinary (m_signals (ct_msg x))) (cn_contained c).
Lemma sub_in {A} k l (x : A) : In x (firstn k l) \/ In x (skipn k l) -> In x l.
Proof. intros H. rewrite <- (firstn_skipn k l). now apply in_or_app. Qed.
Lemma by_header_in c h x : by_header_id c h = Ok (Some x) -> In x (cn_contained c).
Proof.
  unfold by_header_id. destruct (filter _ (cn_contained c)) as [|y [|z r]] eqn:E; intros H; try discriminate. injection H as <-.
  assert (I : In y [y]) by now left. rewrite <- E in I. now apply filter_In in I.
Qed.
Lemma unpacked_contained c at_ : forall fuel data out, unpack_loop fuel c data at_ = Ok out -> bytes_ok data -> Forall (fun y => bytes_ok (snd y) /\ forall x, fst y = inr x -> In x (cn_contained c)) out.
Proof.
  induction fuel as [|fuel IH]; intros data out H BO; [discriminate|]. cbn [unpack_loop] in H.
  destruct data as [|a [|b [|d [|len rest]]]]; try (apply Ok_inj in H; subst out; constructor).
  apply bind_ok in H. destruct H as (len' & _ & H). apply bind_ok in H. destruct H as (o & O & H). apply bind_ok in H. destruct H as (tl & T & H). apply Ok_inj in H. subst out.
  assert (BR : bytes_ok rest) by (do 4 apply Forall_inv_tail in BO; exact BO). constructor.
  - cbn [fst snd]. split.
    + apply Forall_forall. intros y Y. unfold slice in Y. unfold bytes_ok in BR. rewrite Forall_forall in BR. apply BR. apply (sub_in (Z.to_nat 0)). right. apply (sub_in (Z.to_nat (len' - 0))). now left.
    + intros x X. destruct o as [y|]; [|discriminate]. injection X as ->. now apply by_header_in in O.
  - apply (IH _ _ T). apply Forall_forall. intros y Y. unfold bytes_ok in BR. rewrite Forall_forall in BR. apply BR. apply (sub_in (Z.to_nat len')). now right.
Qed.

Theorem C65_container c data dc sc allow_truncated allow_excess e : ordinary_container c -> bytes_ok data ->
  decode_container c data dc sc allow_truncated allow_excess = Err e -> e = DecodeError.
Proof.
  intros [U CS] BO. unfold decode_container. destruct (is_container c) eqn:IC; cbn [negb]; [|congruence].
  destruct (unpack_container c data allow_truncated) as [l|e'] eqn:UP; cbn [bind].
  - assert (L : Forall (fun y => bytes_ok (snd y) /\ forall x, fst y = inr x -> In x (cn_contained c)) l).
    { unfold unpack_container in UP. rewrite IC in UP. cbn [negb] in UP. destruct (cn_length c <? zlen data); [discriminate|]. now apply unpacked_contained in UP. }
    clear UP. rewrite Forall_forall in CS. revert e. induction L as [|[[id|x] body] l [B X] L IH]; intros e H; cbn [decode_items] in H; [discriminate| |].
    + destruct (decode_items l dc sc allow_truncated allow_excess); [discriminate|]. cbn [bind] in H. injection H as <-. now apply IH.
    + destruct (CS x (X x eq_refl)) as [SM OS]. cbn [snd] in B. pose proof (C65_message (ct_msg x) body dc sc allow_truncated allow_excess) as M.
      destruct (decode (ct_msg x) body dc sc allow_truncated allow_excess) as [d|e''].
      * cbn [bind] in H. destruct (decode_items l dc sc allow_truncated allow_excess); [discriminate|]. cbn [bind] in H. injection H as <-. now apply IH.
      * specialize (M e'' SM OS B eq_refl). subst e''. cbn [bind] in H. destruct (decode_items l dc sc allow_truncated allow_excess); [discriminate|]. cbn [bind] in H. injection H as <-. now apply IH.
  - intros [= <-]. destruct (Z.le_gt_cases (zlen data) (cn_length c)) as [LE|GT].
    + pose proof (C22_unpack_total c data allow_truncated U IC BO LE) as T. rewrite UP in T. apply T.
    + rewrite C22_too_long_rejected in UP by lia. congruence.
Qed.

(** Databases: the two errors are KeyError, exactly if there is no such message, and DecodeError. *)
Definition ordinary_entry (e : entry) : Prop :=
  strict_message (e_msg e) /\ Forall ordinary (m_signals (e_msg e)) /\ (e_contained e <> [] -> ordinary_container (e_container e)).
Definition ordinary_database (db : database) : Prop :=
  Forall ordinary_entry (map snd (db_by_id db)) /\ Forall ordinary_entry (map snd (db_by_name db)).
Lemma found_entry db k force e : ordinary_database db -> find_message db k force = Ok e -> ordinary_entry e.
Proof.
  intros [I N] H. rewrite Forall_forall in I, N. unfold find_message in H. destruct k as [z|n]; cbn in H.
  - unfold zget_exn in H. destruct (zget (db_by_id db) _) as [x|] eqn:E; [|discriminate]. apply Ok_inj in H. subst x. apply (get_in _ zspec) in E. apply I. apply (in_map snd) in E. exact E.
  - unfold sget_exn in H. destruct (sget (db_by_name db) n) as [x|] eqn:E; [|discriminate]. apply Ok_inj in H. subst x. apply (get_in _ sspec) in E. apply N. apply (in_map snd) in E. exact E.
Qed.
Lemma entry_err e data dc sc containers at_ ae x : ordinary_entry e -> bytes_ok data -> entry_decode e data dc sc containers at_ ae = Err x -> x = DecodeError.
Proof.
  intros (SM & OS & OC) BO H. unfold entry_decode in H. destruct (is_container (e_container e)) eqn:IC.
  - destruct containers; [|congruence]. destruct (decode_container (e_container e) data dc sc at_ ae) as [l|y] eqn:D; [discriminate|]. cbn [bind] in H. injection H as <-. apply (C65_container _ _ _ _ _ _ _ (OC ltac:(intros E; unfold is_container, e_container in IC; cbn in IC; rewrite E in IC; discriminate)) BO D).
  - destruct (decode (e_msg e) data dc sc at_ ae) as [l|y] eqn:D; [discriminate|]. cbn [bind] in H. injection H as <-. apply (C65_message _ _ _ _ _ _ _ SM OS BO D).
Qed.
Theorem C65_database db k data dc sc containers allow_truncated force : ordinary_database db -> bytes_ok data ->
  match decode_message db k data dc sc containers allow_truncated force with
  | Ok _ => exists e, find_message db k force = Ok e
  | Err x => (exists e, find_message db k force = Ok e) /\ x = DecodeError \/ (exists y, find_message db k force = Err y) /\ x = KeyError
  end.
Proof.
  intros OD BO. unfold decode_message. destruct (find_message db k force) as [e|y] eqn:F; cbn [bind].
  - pose proof (entry_err e data dc sc containers allow_truncated true) as EE. destruct (entry_decode e data dc sc containers allow_truncated true) as [o|x]; [eauto|]. left. split; [eauto|]. now apply (EE x (found_entry db k force e OD F) BO).
  - right. split; [eauto|]. unfold find_message in F. destruct k; cbn in F; [unfold zget_exn in F; destruct (zget (db_by_id db) _)|unfold sget_exn in F; destruct (sget (db_by_name db) n)]; congruence.
Qed.

(** A float signal with a value table: decode() truncates the raw value to look it up, so a NaN raises ValueError and an infinity raises OverflowError. *)
Definition float_table_sigs : list signal := [sig "State" 0 32 false false (conv_of (NInt 1) (NInt 0) (Some [(0, ChNamed 0 "Off")]) true)]%string.
Definition float_table_msg : message :=
  match mk_message 291 false "Ex" 4 0 float_table_sigs true SortDefault with Ok m => m | Err _ => flat_msg end.
Theorem C65_float_table_refuted : strict_message float_table_msg /\
  decode float_table_msg [0; 0; 192; 127] true true false true = Err ValueError /\
  decode float_table_msg [0; 0; 128; 127] true true false true = Err OverflowError /\
  decode float_table_msg [0; 0; 0; 0] true true false true = Ok [("State", VNamed 0 "Off")]%string.
Proof.
  split; [|split; [|split]]; try (vm_compute; reflexivity).
  exists 291, false, "Ex"%string, 4, 0, float_table_sigs. split; [vm_compute; reflexivity|]. split; [lia|]. split; [apply names_nodup; vm_compute; reflexivity|]. split.
  - intros s [<-|[]]. cbn. lia.
  - intros s [<-|[]]. cbn [s_conv sig]. apply built_conv_of. eexists. vm_compute. reflexivity.
Qed.
Ltac ordinary_by a b c d := exists a, b, c, d; split; [vm_compute; reflexivity|]; split; [vm_compute; discriminate|]; split; [vm_compute; discriminate|]; split; [intros H'; (discriminate H' || reflexivity)|intros H'; (discriminate H' || (repeat split; reflexivity))].
Lemma flat_ordinary : Forall ordinary (m_signals flat_msg).
Proof. apply Forall_forall. intros s H. sig_cases H; (split; [vm_compute; discriminate|]); ordinary_by (NInt 1) (NInt 0) (@None choices_t) false. Qed.
Lemma ex_ordinary : Forall ordinary (m_signals ex_msg).
Proof.
  apply Forall_forall. intros s H. sig_cases H; (split; [vm_compute; discriminate|]);
  first [ordinary_by (NInt 1) (NInt 0) (@None choices_t) false|ordinary_by (NInt 2) (NInt 5) (@None choices_t) false|ordinary_by (NInt 1) (NInt 0) (Some onoff) false|ordinary_by (NInt 1) (NInt 0) (@None choices_t) true].
Qed.
(** Two contained messages with one header id: the lookup raises the base class of the errors of the library. *)
Theorem C65_container_refuted : exists c data, decode_container c data true true false true = Err CantoolsError /\ bytes_ok data /\
  Forall (fun x => strict_message (ct_msg x) /\ Forall ordinary (m_signals (ct_msg x))) (cn_contained c).
Proof.
  exists (mkContainer 64 true [mkContained flat_msg (Some 10); mkContained ex_msg (Some 10)]), [0; 0; 10; 0]. split; [vm_compute; reflexivity|].
  split; [repeat constructor; vm_compute; discriminate|]. apply Forall_cons; [exact (conj flat_strict flat_ordinary)|]. apply Forall_cons; [exact (conj ex_strict ex_ordinary)|constructor].
Qed.
(** A database with a multiplexed message, with float, signed and value table signals, and a container *)
Definition box_msg : message := match mk_message 5 true "Box" 64 0 [] true SortDefault with Ok m => m | Err _ => flat_msg end.
Lemma box_strict : strict_message box_msg.
Proof.
  exists 5, true, "Box"%string, 64, 0, []. split; [vm_compute; reflexivity|]. split; [lia|]. split; [constructor|]. split; intros s [].
Qed.
Definition ex_db : database :=
  let a := mkEntry ex_msg true [] in let b := mkEntry box_msg true [ex_contained; flat_contained] in
  mkDatabase [a; b] [("Ex", a); ("Box", b)]%string [(291, a); (2147483653, b)] 0xffffffff true.
Example C65_hypotheses : ordinary_database ex_db /\ bytes_ok ex_bad_payload /\
  decode_message ex_db (KId 291) ex_bad_payload true true false false false = Err DecodeError /\
  (exists o, decode_message ex_db (KId 5) ex_frame true true true false true = Ok o) /\
  decode_message ex_db (KId 5) ex_frame true true true false false = Err KeyError.
Proof.
  assert (A : ordinary_entry (mkEntry ex_msg true [])) by (split; [exact ex_strict|split; [exact ex_ordinary|intros H; now contradiction H]]).
  assert (B : ordinary_entry (mkEntry box_msg true [ex_contained; flat_contained])).
  { split; [exact box_strict|]. split; [constructor|]. intros _. split.
    - destruct (ex_ids true) as [[H1 H2] _]. split; [exact H1|exact H2].
    - apply Forall_cons; [exact (conj ex_strict ex_ordinary)|]. apply Forall_cons; [exact (conj flat_strict flat_ordinary)|constructor]. }
  split; [split; cbn [ex_db db_by_id db_by_name map snd]; auto|]. split; [repeat constructor; vm_compute; discriminate|]. split; [vm_compute; reflexivity|]. split; [|vm_compute; reflexivity].
  destruct (decode_message ex_db (KId 5) ex_frame true true true false true) as [o|x] eqn:E; [eauto|vm_compute in E; discriminate E].
Qed.
