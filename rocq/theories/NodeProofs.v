(** NodeProofs: what encode_data, decode_data and the padding mask of one codec node do, in terms of
    payload bits. *)
From Coq Require Import Floats.SpecFloat Sorting.Permutation Sorting.Sorted.
From Verif Require Import Base PyNum Conversion Signal Bitstruct Formats LayoutSpec
     DictLemmas BitsLemmas FloatBits GenItems.
Ltac Zify.zify_post_hook ::= Z.div_mod_to_equations.

Lemma Ok_inj {A} (a b : A) : Ok a = Ok b -> a = b.
Proof. congruence. Qed.

(** Bit [b] of the [n] byte payload that is written for the big endian integer [E]. *)
Definition fbit (n E b : Z) : bool := Z.testbit E (8 * n - 1 - net b).

Definition little (s : signal) : bool := negb (s_big s).

(** A set of signals that can be coded together in [n] bytes. *)
Record node_ok (n : Z) (l : list signal) : Prop := {
  no_len : 0 <= n;
  no_names : NoDup (map s_name l);
  no_pos : forall s, In s l -> 0 < s_length s;
  no_fits : forall s, In s l -> sig_fits n s;
  no_disj : forall s t, In s l -> In t l -> s <> t -> sig_disjoint s t;
  no_sorted : StronglySorted (fun a b => s_start a <= s_start b) (filter little l)
}.

Lemma disjoint_big s t :
  s_big s = true -> s_big t = true -> 0 < s_length s -> 0 < s_length t ->
  sig_disjoint s t -> start_bit s <= start_bit t -> start_bit s + s_length s <= start_bit t.
Proof.
  intros Bs Bt Ls Lt D H.
  destruct (Z.le_gt_cases (start_bit s + s_length s) (start_bit t)); [assumption|exfalso].
  apply (D (net (start_bit t))).
  - apply occupies_big; [assumption|]. rewrite net_invol. lia.
  - apply occupies_big; [assumption|]. rewrite net_invol. lia.
Qed.

Lemma disjoint_little s t :
  s_big s = false -> s_big t = false -> 0 < s_length s -> 0 < s_length t ->
  sig_disjoint s t -> s_start s <= s_start t -> s_start s + s_length s <= s_start t.
Proof.
  intros Bs Bt Ls Lt D H.
  destruct (Z.le_gt_cases (s_start s + s_length s) (s_start t)); [assumption|exfalso].
  apply (D (s_start t)); apply occupies_little; auto; lia.
Qed.

Definition sort_big (l : list signal) : list signal :=
  sorted_py (fun a b => sawtooth_to_network (s_start a) <=? sawtooth_to_network (s_start b))
            (filter s_big l).

Lemma sort_big_in l s : In s (sort_big l) <-> In s l /\ s_big s = true.
Proof.
  unfold sort_big. rewrite <- filter_In. split; apply Permutation_in.
  - apply sorted_py_perm.
  - symmetry; apply sorted_py_perm.
Qed.

Lemma FOP_impl_in {A} (R Q : A -> A -> Prop) l :
  NoDup l -> (forall a b, In a l -> In b l -> a <> b -> R a b -> Q a b) ->
  ForallOrdPairs R l -> ForallOrdPairs Q l.
Proof.
  intros ND H F. induction F as [|x l HF F IH]; constructor.
  - inversion ND; subst. rewrite Forall_forall in *. intros y Hy. apply H; auto.
    + now left.
    + now right.
    + intros ->. contradiction.
  - inversion ND; subst. apply IH; [assumption|]. intros; apply H; auto; now right.
Qed.

Lemma create_big_chain n l :
  node_ok n l -> (forall s, In s l -> kind_ok s) ->
  chain start_bit 0 (sort_big l) (8 * n).
Proof.
  intros OK K. apply chain_of.
  - intros s Hs. apply sort_big_in in Hs. destruct Hs as [Hs Hb].
    split; [auto|]. apply sig_fits_iff; [apply OK; auto|]. now apply OK.
  - destruct OK; lia.
  - assert (P : Permutation (sort_big l) (filter s_big l)) by apply sorted_py_perm.
    assert (ND : NoDup (sort_big l)).
    { apply Permutation_NoDup with (1 := Permutation_sym P). apply NoDup_filter.
      apply NoDup_map_inv with (f := s_name). apply OK. }
    apply FOP_impl_in with (R := fun a b =>
      (sawtooth_to_network (s_start a) <=? sawtooth_to_network (s_start b)) = true).
    + exact ND.
    + intros a b Ha Hb N L. apply sort_big_in in Ha, Hb. destruct Ha as [Ha Ba], Hb as [Hb Bb].
      apply disjoint_big; auto; try apply OK; auto.
      rewrite !start_bit_big by assumption. unfold net in *. lia.
    + apply StronglySorted_FOP. apply sorted_py_sorted; intros; lia.
Qed.

Lemma StronglySorted_rev_FOP {A} (R : A -> A -> Prop) l :
  ForallOrdPairs R l -> ForallOrdPairs (fun a b => R b a) (rev l).
Proof.
  assert (App : forall (Q : A -> A -> Prop) l1 l2, ForallOrdPairs Q l1 -> ForallOrdPairs Q l2 ->
            (forall a b, In a l1 -> In b l2 -> Q a b) -> ForallOrdPairs Q (l1 ++ l2)).
  { intros Q l1 l2 H1 H2 HX. induction H1 as [|x l1 HF H1 IH]; cbn; [assumption|].
    constructor.
    - rewrite Forall_forall in *. intros y Hy. apply in_app_iff in Hy. destruct Hy; [auto|].
      apply HX; [now left|assumption].
    - apply IH. intros; apply HX; [now right|assumption]. }
  induction 1 as [|x l HF H IH]; cbn; [constructor|].
  apply App; [assumption|repeat constructor|].
  intros a b Ha [<-|[]]. rewrite Forall_forall in HF. apply HF. now apply in_rev.
Qed.

Lemma filter_rev' {A} (p : A -> bool) l : filter p (rev l) = rev (filter p l).
Proof.
  induction l as [|x l IH]; cbn; [reflexivity|]. rewrite filter_app, IH. cbn.
  destruct (p x); cbn; [reflexivity|]. apply app_nil_r.
Qed.

Lemma create_little_chain n l :
  node_ok n l -> (forall s, In s l -> kind_ok s) ->
  chain (lsb_off (8 * n)) 0 (filter little (rev l)) (8 * n).
Proof.
  intros OK K.
  assert (IN : forall s, In s (filter little (rev l)) -> In s l /\ s_big s = false).
  { intros s Hs. apply filter_In in Hs. destruct Hs as [Hs Hb]. apply in_rev in Hs.
    split; [assumption|]. unfold little in Hb. now destruct (s_big s). }
  apply chain_of.
  - intros s Hs. apply IN in Hs. destruct Hs as [Hs Hb]. split; [auto|].
    assert (HF : sig_fits n s) by now apply OK.
    apply sig_fits_iff in HF; [|apply OK; auto]. rewrite start_bit_little in HF by assumption.
    unfold lsb_off. lia.
  - destruct OK; lia.
  - apply FOP_impl_in with (R := fun a b => s_start b <= s_start a).
    + apply NoDup_filter. apply NoDup_rev. apply NoDup_map_inv with (f := s_name). apply OK.
    + intros a b Ha Hb N L. apply IN in Ha, Hb. destruct Ha as [Ha Ba], Hb as [Hb Bb].
      unfold lsb_off.
      assert (s_start b + s_length b <= s_start a); [|lia].
      apply disjoint_little; auto; try (apply OK; auto).
    + rewrite filter_rev'. apply (StronglySorted_rev_FOP (fun a b => s_start a <= s_start b)).
      apply StronglySorted_FOP. apply OK.
Qed.

(** ** The formats of a node *)
Lemma create_big_eq l flen : create_big l flen = gen_items start_bit 0 (sort_big l) flen.
Proof. unfold create_big. apply big_items_gen. Qed.
Lemma create_little_eq l flen :
  create_little l flen = gen_items (lsb_off flen) 0 (filter little (rev l)) flen.
Proof.
  unfold create_little. rewrite (little_items_gen flen). now replace (flen - flen) with 0 by lia.
Qed.

Lemma data_item_in sb l : forall start flen s, In s l -> In (data_item s) (gen_items sb start l flen).
Proof.
  induction l as [|t r IH]; cbn [gen_items]; intros start flen s HI; [contradiction|].
  apply in_app_iff. right. destruct HI as [->|HI]; [now left|]. right. now apply IH.
Qed.

Lemma compile_ok its : compile its = Ok tt <-> forall it, In it its -> item_valid it = true.
Proof.
  unfold compile. rewrite <- forallb_forall. destruct (forallb item_valid its); split; congruence.
Qed.

Lemma data_item_valid_kind s : 0 < s_length s -> (item_valid (data_item s) = true <-> kind_ok s).
Proof.
  intros Hl. unfold kind_ok, data_item, item_valid, format_kind.
  destruct (conv_is_float (s_conv s)); [tauto|].
  destruct (s_signed s); split; intros H; try (split; [assumption|discriminate]); lia.
Qed.

Lemma create_formats_inv l n fm :
  create_formats l n = Ok fm ->
  fm = mkFormats (create_big l (8 * n)) (create_little l (8 * n))
         (Z.land (padding_mask (create_big l (8 * n))) (little_mask (create_little l (8 * n)) (8 * n)))
  /\ (forall s, In s l -> item_valid (data_item s) = true).
Proof.
  unfold create_formats.
  destruct (compile (create_big l (8 * n))) as [[]|] eqn:E1; cbn [bind]; [|discriminate].
  destruct (compile (create_little l (8 * n))) as [[]|] eqn:E2; cbn [bind]; [|discriminate].
  intros [= <-]. split; [reflexivity|].
  intros s Hs.
  rewrite compile_ok in E1. rewrite compile_ok in E2.
  destruct (s_big s) eqn:Hb.
  - apply E1. rewrite create_big_eq. apply data_item_in. now apply sort_big_in.
  - apply E2. rewrite create_little_eq. apply data_item_in. apply filter_In.
    rewrite <- in_rev. unfold little. now rewrite Hb.
Qed.

Lemma gen_valid sb l : forall start flen, (forall s, In s l -> item_valid (data_item s) = true) ->
  forall it, In it (gen_items sb start l flen) -> item_valid it = true.
Proof.
  induction l as [|t r IH]; cbn [gen_items]; intros start flen H it HI.
  - unfold pad_if in HI. destruct (0 <? flen - start) eqn:E; [|contradiction].
    destruct HI as [<-|[]]. exact E.
  - apply in_app_iff in HI. destruct HI as [HI|[<-|HI]].
    + unfold pad_if in HI. destruct (0 <? sb t - start) eqn:E; [|contradiction].
      destruct HI as [<-|[]]. exact E.
    + apply H. now left.
    + eapply IH; eauto. intros; apply H; now right.
Qed.

(** Formats always compile when every signal has a valid size. *)
Lemma create_formats_ok l n :
  (forall s, In s l -> kind_ok s) -> exists fm, create_formats l n = Ok fm.
Proof.
  intros K. unfold create_formats.
  assert (V : forall s, In s l -> item_valid (data_item s) = true).
  { intros s Hs. apply data_item_valid_kind; [apply K; auto|auto]. }
  assert (E1 : compile (create_big l (8 * n)) = Ok tt).
  { apply compile_ok. rewrite create_big_eq. apply gen_valid. intros s Hs.
    apply sort_big_in in Hs. now apply V. }
  assert (E2 : compile (create_little l (8 * n)) = Ok tt).
  { apply compile_ok. rewrite create_little_eq. apply gen_valid. intros s Hs.
    apply filter_In in Hs. destruct Hs as [Hs _]. rewrite <- in_rev in Hs. now apply V. }
  rewrite E1, E2. cbn [bind]. eauto.
Qed.

Lemma node_kind n l fm : node_ok n l -> create_formats l n = Ok fm -> forall s, In s l -> kind_ok s.
Proof.
  intros OK H s Hs. destruct (create_formats_inv _ _ _ H) as [_ V].
  apply data_item_valid_kind; [now apply OK|auto].
Qed.

(** ** pack_int on whole bytes *)
Lemma bytes_for_8 n : 0 <= n -> bytes_for (8 * n) = Z.to_nat n.
Proof. intros. unfold bytes_for. f_equal. lia. Qed.

Lemma pack_int_8 n v : 0 <= n -> pack_int (8 * n) v = to_be (Z.to_nat n) v.
Proof.
  intros Hn. unfold pack_int. rewrite bytes_for_8 by assumption.
  replace (8 * Z.of_nat (Z.to_nat n) - 8 * n) with 0 by lia. now rewrite Z.mul_1_r.
Qed.

Lemma from_be_pack n v : 0 <= n -> 0 <= v < 2 ^ (8 * n) -> from_be (pack_int (8 * n) v) = v.
Proof.
  intros Hn Hv. rewrite pack_int_8 by assumption. apply from_be_to_be.
  rewrite Z2Nat.id, pow256 by lia. assumption.
Qed.

Lemma from_le_pack n v : 0 <= n -> 0 <= v < 2 ^ (8 * n) ->
  0 <= from_le (pack_int (8 * n) v) < 2 ^ (8 * n) /\
  forall b, 0 <= b < 8 * n -> fbit n (from_le (pack_int (8 * n) v)) b = Z.testbit v b.
Proof.
  intros Hn Hv. rewrite pack_int_8 by assumption.
  assert (OKB := to_be_ok (Z.to_nat n) v).
  assert (HL : zlen (to_be (Z.to_nat n) v) = n) by (unfold zlen; rewrite to_be_length; lia).
  split.
  - rewrite <- pow256 by assumption. assert (B := from_le_bound _ OKB). now rewrite HL in B.
  - intros b Hb. unfold fbit.
    assert (R : 0 <= net b < 8 * n) by (apply -> net_range; assumption).
    rewrite testbit_from_le by (assumption || lia).
    rewrite payload_bit_to_be by (rewrite ?Z2Nat.id, ?pow256 by lia; lia).
    f_equal. rewrite Z2Nat.id by assumption. unfold net. lia.
Qed.

Lemma fbit_lor n a b i : fbit n (Z.lor a b) i = fbit n a i || fbit n b i.
Proof. apply Z.lor_spec. Qed.
Lemma fbit_land n a b i : fbit n (Z.land a b) i = fbit n a i && fbit n b i.
Proof. apply Z.land_spec. Qed.

Lemma lor_bound n a b : 0 <= n -> 0 <= a < 2 ^ n -> 0 <= b < 2 ^ n -> 0 <= Z.lor a b < 2 ^ n.
Proof.
  intros Hn Ha Hb. apply testbit_bound; [assumption|]. intros i Hi.
  rewrite Z.lor_spec, (testbit_high a n), (testbit_high b n) by assumption. reflexivity.
Qed.
Lemma land_bound n a b : 0 <= n -> 0 <= a < 2 ^ n -> 0 <= b < 2 ^ n -> 0 <= Z.land a b < 2 ^ n.
Proof.
  intros Hn Ha Hb. apply testbit_bound; [assumption|]. intros i Hi.
  rewrite Z.land_spec, (testbit_high a n) by assumption. reflexivity.
Qed.

(** ** The padding mask *)
Lemma node_mask n l fm :
  node_ok n l -> create_formats l n = Ok fm ->
  0 <= f_mask fm < 2 ^ (8 * n) /\
  forall b, 0 <= b < 8 * n ->
    (fbit n (f_mask fm) b = true <-> forall s, In s l -> ~ occupies s b).
Proof.
  intros OK H. assert (K := node_kind _ _ _ OK H).
  destruct (create_formats_inv _ _ _ H) as [-> _]. cbn [f_mask].
  assert (Hn : 0 <= n) by apply OK.
  rewrite create_big_eq, create_little_eq.
  assert (CB := create_big_chain _ _ OK K). assert (CL := create_little_chain _ _ OK K).
  destruct (mask_gen _ _ _ _ CB) as [MB TB]. destruct (mask_gen _ _ _ _ CL) as [ML TL].
  rewrite Z.sub_0_r in *.
  set (mb := padding_mask (gen_items start_bit _ _ _)) in *.
  set (gl := gen_items (lsb_off (8 * n)) 0 _ (8 * n)) in *.
  assert (LM : 0 <= little_mask gl (8 * n) < 2 ^ (8 * n) /\
               forall b, 0 <= b < 8 * n -> fbit n (little_mask gl (8 * n)) b = Z.testbit (padding_mask gl) b).
  { unfold little_mask. destruct (Z.ltb_spec 0 (8 * n)).
    - assert (GL : items_len gl = 8 * n) by (unfold gl; rewrite gen_len by assumption; lia).
      rewrite GL. now apply from_le_pack.
    - split; [assumption|]. intros; lia. }
  destruct LM as [LM1 LM2].
  split; [apply land_bound; auto; lia|].
  intros b Hb. rewrite fbit_land, LM2, andb_true_iff by assumption.
  unfold fbit. assert (R : 0 <= net b < 8 * n) by (apply -> net_range; assumption).
  rewrite TB, TL by lia. split.
  - intros [H1 H2] s Hs O. destruct (s_big s) eqn:Eb.
    + apply (H1 s); [now apply sort_big_in|]. apply occupies_big in O; [|assumption]. lia.
    + apply (H2 s); [apply filter_In; rewrite <- in_rev; unfold little; now rewrite Eb|].
      apply occupies_little in O; [|assumption]. unfold lsb_off. lia.
  - intros HN. split.
    + intros s Hs O. apply sort_big_in in Hs. destruct Hs as [Hs Eb]. apply (HN s Hs).
      apply occupies_big; [assumption|]. lia.
    + intros s Hs O. apply filter_In in Hs. destruct Hs as [Hs Eb]. rewrite <- in_rev in Hs.
      apply (HN s Hs). apply occupies_little; [unfold little in Eb; now destruct (s_big s)|].
      unfold lsb_off in O. lia.
Qed.

(** ** Encoding *)

(** The raw value sent for a signal. *)
Definition sig_raw (d : list (string * value)) (sc : bool) (s : signal) : result num :=
  let* v := sget_exn d (s_name s) in encode_signal_value s v sc.

Lemma encode_signal_values_eq l d sc : forall acc,
  NoDup (map fst acc ++ map s_name l) ->
  encode_signal_values l d sc acc =
  let* rs := mapM (fun s => let* r := sig_raw d sc s in Ok (s_name s, r)) l in Ok (acc ++ rs).
Proof.
  induction l as [|s l IH]; cbn [encode_signal_values mapM map]; intros acc ND.
  - cbn. now rewrite app_nil_r.
  - unfold sig_raw at 1.
    destruct (sget_exn d (s_name s)) as [v|]; cbn [bind]; [|reflexivity].
    destruct (encode_signal_value s v sc) as [r|]; cbn [bind]; [|reflexivity].
    assert (N := NoDup_remove_2 _ _ _ ND). rewrite in_app_iff in N.
    rewrite (set_new _ sspec) by tauto.
    rewrite IH.
    + destruct (mapM _ l); cbn [bind]; [|reflexivity]. now rewrite <- app_assoc.
    + rewrite map_app. cbn [map fst]. rewrite <- app_assoc. exact ND.
Qed.

(** Dictionary built from a list of signals with unique names. *)
Lemma assoc_signals {V} l (g : signal -> V) s :
  NoDup (map s_name l) -> In s l -> sget (map (fun s => (s_name s, g s)) l) (s_name s) = Some (g s).
Proof.
  intros ND HI. apply (in_get _ sspec).
  - rewrite map_map. cbn. exact ND.
  - apply in_map_iff. eauto.
Qed.
Lemma assoc_signals_none {V} l (g : signal -> V) k :
  ~ In k (map s_name l) -> sget (map (fun s => (s_name s, g s)) l) k = None.
Proof. intros H. apply (get_none _ sspec). rewrite map_map. exact H. Qed.

Lemma raws_get l d sc rs s :
  NoDup (map s_name l) ->
  mapM (fun s => let* r := sig_raw d sc s in Ok (s_name s, r)) l = Ok rs ->
  In s l -> exists r, sig_raw d sc s = Ok r /\ sget rs (s_name s) = Some r.
Proof.
  intros ND HM HI. apply mapM_ok in HM.
  induction HM as [|x y l rs HX HM IH]; [contradiction|].
  cbn in ND. inversion ND as [|? ? N1 N2]; subst.
  apply bind_ok in HX. destruct HX as (r & Hr & [= <-]).
  cbn. destruct HI as [->|HI].
  - exists r. rewrite String.eqb_refl. auto.
  - destruct (String.eqb_spec (s_name x) (s_name s)) as [E|N].
    + exfalso. apply N1. rewrite E. now apply in_map.
    + now apply IH.
Qed.

Theorem encode_data_spec n l fm d sc E :
  node_ok n l -> create_formats l n = Ok fm -> encode_data d l fm sc = Ok E ->
  0 <= E < 2 ^ (8 * n) /\
  (forall s, In s l -> exists raw x,
     sig_raw d sc s = Ok raw /\ pack_field (format_kind s) (s_length s) raw = Ok x /\
     forall k, 0 <= k < s_length s -> fbit n E (bit_pos s k) = Z.testbit x k) /\
  (forall b, 0 <= b < 8 * n -> (forall s, In s l -> ~ occupies s b) -> fbit n E b = false).
Proof.
  intros OK HF HE. assert (K := node_kind _ _ _ OK HF).
  destruct (create_formats_inv _ _ _ HF) as [-> _].
  assert (Hn : 0 <= n) by apply OK.
  unfold encode_data in HE. destruct l as [|s0 l0] eqn:El.
  { injection HE as <-. repeat split; try lia; [intros s []|].
    intros. unfold fbit. apply Z.bits_0. }
  rewrite <- El in *. clear El s0 l0. cbn [f_big f_little] in HE.
  rewrite encode_signal_values_eq in HE by (apply OK).
  apply bind_ok in HE. destruct HE as (raws & HR & HE).
  apply bind_ok in HR. destruct HR as (rs & HR & [= <-]). cbn [app] in HE.
  assert (CB := create_big_chain _ _ OK K). assert (CL := create_little_chain _ _ OK K).
  unfold pack in HE. rewrite create_big_eq, create_little_eq in HE.
  rewrite !gen_len in HE by assumption. rewrite Z.sub_0_r in HE.
  destruct (pack_items rs (gen_items start_bit _ _ _)) as [vb|] eqn:Evb; cbn [bind] in HE; [|discriminate].
  destruct (pack_items rs (gen_items (lsb_off _) _ _ _)) as [vl|] eqn:Evl; cbn [bind] in HE; [|discriminate].
  apply Ok_inj in HE; subst E.
  destruct (pack_gen _ _ _ _ _ _ CB Evb) as (BB & FB & NB).
  destruct (pack_gen _ _ _ _ _ _ CL Evl) as (BL & FL & NL).
  rewrite Z.sub_0_r in BB, BL.
  rewrite from_be_pack by assumption.
  destruct (from_le_pack n vl Hn BL) as [LB LT].
  set (el := from_le (pack_int (8 * n) vl)) in *.
  assert (ZB : forall b, 0 <= b < 8 * n -> (forall s, In s l -> s_big s = true -> ~ occupies s b) -> fbit n vb b = false).
  { intros b Hb HN. unfold fbit.
    assert (R : 0 <= net b < 8 * n) by (apply -> net_range; assumption).
    apply NB; [lia|]. intros s Hs O. apply sort_big_in in Hs. destruct Hs as [Hs Eb].
    apply (HN s Hs Eb). apply occupies_big; [assumption|]. lia. }
  assert (ZL : forall b, 0 <= b < 8 * n -> (forall s, In s l -> s_big s = false -> ~ occupies s b) -> fbit n el b = false).
  { intros b Hb HN. rewrite LT by assumption. apply NL; [lia|].
    intros s Hs O. apply filter_In in Hs. destruct Hs as [Hs Eb]. rewrite <- in_rev in Hs.
    unfold little in Eb. assert (s_big s = false) by now destruct (s_big s).
    apply (HN s Hs); [assumption|]. apply occupies_little; [assumption|]. unfold lsb_off in O. lia. }
  split; [apply lor_bound; auto; lia|]. split.
  - intros s Hs.
    destruct (raws_get _ _ _ _ _ (no_names _ _ OK) HR Hs) as (raw & Hraw & Hget).
    assert (FITS : forall k, 0 <= k < s_length s -> 0 <= bit_pos s k < 8 * n).
    { intros k Hk. apply (no_fits _ _ OK s Hs). now apply occupies_pos. }
    assert (ONLY : forall k t, 0 <= k < s_length s -> In t l -> t <> s -> ~ occupies t (bit_pos s k)).
    { intros k t Hk Ht N O. apply (no_disj _ _ OK t s Ht Hs N (bit_pos s k) O). now apply occupies_pos. }
    exists raw.
    destruct (s_big s) eqn:Eb.
    + destruct (FB s) as (x & Hx & _ & Tx); [now apply sort_big_in|].
      unfold field, sget_exn in Hx. rewrite Hget in Hx. cbn [bind] in Hx.
      exists x. split; [assumption|]. split; [assumption|]. intros k Hk.
      rewrite fbit_lor. rewrite (ZL (bit_pos s k)).
      * rewrite orb_false_r. unfold fbit. rewrite bit_pos_big by assumption.
        rewrite <- Tx by assumption. f_equal. lia.
      * auto.
      * intros t Ht Et. apply ONLY; auto. intros ->. congruence.
    + destruct (FL s) as (x & Hx & _ & Tx).
      { apply filter_In. rewrite <- in_rev. unfold little. now rewrite Eb. }
      unfold field, sget_exn in Hx. rewrite Hget in Hx. cbn [bind] in Hx.
      exists x. split; [assumption|]. split; [assumption|]. intros k Hk.
      rewrite fbit_lor. rewrite (ZB (bit_pos s k)).
      * cbn [orb]. rewrite LT by auto. rewrite bit_pos_little by assumption.
        rewrite <- Tx by assumption. f_equal. unfold lsb_off. lia.
      * auto.
      * intros t Ht Et. apply ONLY; auto. intros ->. congruence.
  - intros b Hb HN. rewrite fbit_lor, ZB, ZL by auto. reflexivity.
Qed.

(** Encoding one node succeeds exactly when every raw value exists and fits. *)
Theorem encode_data_ok n l fm d sc :
  node_ok n l -> create_formats l n = Ok fm ->
  ((exists E, encode_data d l fm sc = Ok E) <->
   forall s, In s l -> exists raw x,
     sig_raw d sc s = Ok raw /\ pack_field (format_kind s) (s_length s) raw = Ok x).
Proof.
  intros OK HF. split.
  { intros [E HE] s Hs. destruct (encode_data_spec _ _ _ _ _ _ OK HF HE) as (_ & H & _).
    destruct (H s Hs) as (raw & x & H1 & H2 & _). eauto. }
  intros HX. assert (K := node_kind _ _ _ OK HF).
  destruct (create_formats_inv _ _ _ HF) as [-> _].
  unfold encode_data. destruct l as [|s0 l0] eqn:El; [eauto|].
  rewrite <- El in *. clear El s0 l0. cbn [f_big f_little].
  rewrite encode_signal_values_eq by (apply OK). cbn [app].
  assert (exists rs, mapM (fun s => let* r := sig_raw d sc s in Ok (s_name s, r)) l = Ok rs) as [rs HR].
  { apply mapM_ok_ex. apply Forall_forall. intros s Hs. destruct (HX s Hs) as (raw & x & H1 & _).
    rewrite H1. cbn. eauto. }
  rewrite HR. cbn [bind].
  assert (FO : forall s, In s l -> exists x, field rs s = Ok x).
  { intros s Hs. destruct (raws_get _ _ _ _ _ (no_names _ _ OK) HR Hs) as (raw & Hraw & Hget).
    destruct (HX s Hs) as (raw' & x & H1 & H2). assert (raw' = raw) by congruence. subst.
    exists x. unfold field, sget_exn. now rewrite Hget. }
  unfold pack. rewrite create_big_eq, create_little_eq.
  destruct (pack_gen_ok start_bit rs (sort_big l) 0 (8 * n)) as [vb Evb].
  { now apply create_big_chain. }
  { intros s Hs. apply sort_big_in in Hs. now apply FO. }
  destruct (pack_gen_ok (lsb_off (8 * n)) rs (filter little (rev l)) 0 (8 * n)) as [vl Evl].
  { now apply create_little_chain. }
  { intros s Hs. apply filter_In in Hs. destruct Hs as [Hs _]. rewrite <- in_rev in Hs. now apply FO. }
  rewrite Evb, Evl. cbn [bind]. eauto.
Qed.

(** ** Decoding *)
Lemma get_field_digits sb flen v s f :
  0 < s_length s ->
  0 <= flen - sb s - s_length s ->
  (forall k, 0 <= k < s_length s -> Z.testbit v (flen - sb s - s_length s + k) = f k) ->
  get_field sb flen v s = digits f (Z.to_nat (s_length s)).
Proof.
  intros Hl H0 H. symmetry. apply digits_unique; rewrite Z2Nat.id by lia.
  - now apply get_field_bound.
  - intros i Hi. rewrite get_field_testbit by assumption. now apply H.
Qed.

Lemma unpack_field_read data s :
  0 < s_length s ->
  unpack_field (format_kind s) (s_length s)
    (digits (fun k => payload_bit data (bit_pos s k)) (Z.to_nat (s_length s))) = read_raw data s.
Proof.
  intros Hl. unfold read_raw, format_kind, unpack_field, read_int.
  destruct (conv_is_float (s_conv s)); [reflexivity|].
  destruct (s_signed s); cbn [andb]; [|reflexivity].
  set (f := fun k => payload_bit data (bit_pos s k)).
  assert (B := digits_bound f (Z.to_nat (s_length s))). rewrite Z2Nat.id in B by lia.
  rewrite top_bit by assumption. rewrite digits_testbit by lia.
  destruct (Z.ltb_spec (s_length s - 1) (Z.of_nat (Z.to_nat (s_length s)))); [|lia].
  unfold f at 1. destruct (payload_bit data (bit_pos s (s_length s - 1))); reflexivity.
Qed.

(** The dictionary obtained by unpacking both formats. *)
Definition unpack_both (fm : formats) (data : list Z) : result (list (string * num)) :=
  let* b := unpack (f_big fm) data in
  let* l := unpack (f_little fm) (rev data) in
  Ok (supdate b l).

Lemma unpack_both_spec n l fm data :
  node_ok n l -> create_formats l n = Ok fm -> bytes_ok data -> zlen data = n ->
  exists u, unpack_both fm data = Ok u /\ NoDup (map fst u) /\
    (forall s, In s l -> sget u (s_name s) = Some (read_raw data s)) /\
    (forall k, ~ In k (map s_name l) -> sget u k = None).
Proof.
  intros OK HF HB HL. assert (K := node_kind _ _ _ OK HF).
  destruct (create_formats_inv _ _ _ HF) as [-> _].
  assert (CB := create_big_chain _ _ OK K). assert (CL := create_little_chain _ _ OK K).
  unfold unpack_both, unpack. cbn [f_big f_little].
  rewrite create_big_eq, create_little_eq.
  rewrite !gen_len by assumption.
  assert (HL' : zlen (rev data) = n) by (unfold zlen in *; rewrite rev_length; assumption).
  rewrite HL, HL', Z.sub_0_r, Z.ltb_irrefl. cbn [bind].
  assert (UB := unpack_gen start_bit (from_be data) _ _ _ CB). rewrite Z.sub_0_r in UB. rewrite UB.
  assert (UL := unpack_gen (lsb_off (8 * n)) (from_be (rev data)) _ _ _ CL).
  rewrite Z.sub_0_r in UL. rewrite UL. clear UB UL.
  unfold from_be at 2. rewrite rev_involutive.
  match goal with |- context[supdate [] (map ?f (sort_big l))] => set (fb := f) end.
  match goal with |- context[supdate [] (map ?f (filter little (rev l)))] => set (fl := f) end.
  assert (NDB : NoDup (map fst (map fb (sort_big l)))).
  { rewrite map_map. cbn. apply Permutation_NoDup with (map s_name (filter s_big l)).
    - apply Permutation_map. symmetry. apply sorted_py_perm.
    - apply NoDup_filter_map. apply OK. }
  assert (NDL : NoDup (map fst (map fl (filter little (rev l))))).
  { rewrite map_map. cbn. apply NoDup_filter_map. rewrite map_rev. apply NoDup_rev. apply OK. }
  eexists. split; [reflexivity|].
  assert (ND1 : NoDup (map fst (supdate [] (map fb (sort_big l))))).
  { apply (upd_nodup _ sspec). constructor. }
  assert (ND2 : NoDup (map fst (supdate [] (map fl (filter little (rev l)))))).
  { apply (upd_nodup _ sspec). constructor. }
  split; [now apply (upd_nodup _ sspec)|].
  assert (NSB : NoDup (map s_name (sort_big l))) by (rewrite map_map in NDB; exact NDB).
  assert (NSL : NoDup (map s_name (filter little (rev l)))) by (rewrite map_map in NDL; exact NDL).
  split.
  - intros s Hs. rewrite (get_upd _ sspec) by assumption.
    rewrite !(get_upd _ sspec) by assumption. cbn [dget].
    assert (FITS : sig_fits n s) by now apply OK.
    assert (LP : 0 < s_length s) by now apply OK.
    destruct (s_big s) eqn:Eb.
    + unfold fl. rewrite assoc_signals_none.
      2:{ intros HI. apply in_map_iff in HI. destruct HI as (t & Et & HI). apply filter_In in HI.
          destruct HI as [HI Bt]. rewrite <- in_rev in HI.
          assert (t = s) by (apply (NoDup_map_inj s_name l); auto; apply OK). subst.
          unfold little in Bt. now rewrite Eb in Bt. }
      unfold fb. rewrite assoc_signals with (s := s); [|assumption|now apply sort_big_in].
      f_equal. rewrite <- unpack_field_read by assumption. f_equal.
      apply sig_fits_iff in FITS; [|assumption].
      apply get_field_digits; [assumption|lia|]. intros k Hk.
      rewrite <- testbit_from_be; [|assumption|].
      * rewrite HL. f_equal. rewrite bit_pos_big by assumption. lia.
      * rewrite HL. apply (no_fits _ _ OK s Hs). now apply occupies_pos.
    + unfold fl. rewrite assoc_signals with (s := s); [|assumption|].
      2:{ apply filter_In. rewrite <- in_rev. unfold little. now rewrite Eb. }
      f_equal. rewrite <- unpack_field_read by assumption. f_equal.
      apply sig_fits_iff in FITS; [|assumption]. rewrite start_bit_little in FITS by assumption.
      apply get_field_digits; [assumption|unfold lsb_off; lia|]. intros k Hk.
      rewrite testbit_from_le; [|assumption|unfold lsb_off; lia].
      f_equal. rewrite bit_pos_little by assumption. unfold lsb_off. lia.
  - intros k Hk. rewrite (get_upd _ sspec) by assumption.
    rewrite !(get_upd _ sspec) by assumption. cbn [dget].
    unfold fl. rewrite assoc_signals_none.
    2:{ intros HI. apply Hk. apply in_map_iff in HI. destruct HI as (t & Et & HI).
        apply filter_In in HI. destruct HI as [HI _]. rewrite <- in_rev in HI. apply in_map_iff. eauto. }
    unfold fb. rewrite assoc_signals_none; [reflexivity|].
    intros HI. apply Hk. apply in_map_iff in HI. destruct HI as (t & Et & HI).
    apply sort_big_in in HI. apply in_map_iff. exists t. tauto.
Qed.

(** Is the signal completely inside the first [n] bytes? *)
Definition within (n : Z) (s : signal) : bool := start_bit s + s_length s <=? 8 * n.

Lemma within_iff m n s : 0 < s_length s -> sig_fits m s -> (within n s = true <-> sig_within n s).
Proof.
  intros Hl HF. unfold sig_within. rewrite sig_fits_iff in * by assumption. unfold within. lia.
Qed.

Lemma remove_truncated_spec nb l : forall u,
  NoDup (map fst u) -> NoDup (map s_name l) ->
  (forall s, In s l -> exists v, sget u (s_name s) = Some v) ->
  exists u', remove_truncated l (8 * nb) u = Ok u' /\
    (forall s, In s l -> sget u' (s_name s) = if within nb s then sget u (s_name s) else None) /\
    (forall k, ~ In k (map s_name l) -> sget u' k = sget u k).
Proof.
  induction l as [|s l IH]; intros u NDu NDl HG; cbn [remove_truncated].
  - exists u. split; [reflexivity|]. split; [intros s []|]. reflexivity.
  - cbn in NDl. inversion NDl as [|? ? N1 N2]; subst.
    fold (start_bit s).
    assert (Ew : (8 * nb <? start_bit s + s_length s) = negb (within nb s)) by (unfold within; lia).
    change (if s_big s then 8 * (s_start s / 8) + (7 - s_start s mod 8) else s_start s) with (start_bit s).
    rewrite Ew. destruct (within nb s) eqn:W; cbn [negb].
    + destruct (IH u NDu N2) as (u' & E & H1 & H2). { intros; apply HG; now right. }
      exists u'. split; [assumption|]. split.
      * intros t [<-|Ht]; [|auto]. rewrite W. now apply H2.
      * intros k Hk. apply H2. intros ?; apply Hk; now right.
    + destruct (HG s) as [v Hv]; [now left|]. unfold dmem. rewrite Hv.
      destruct (IH (sdel u (s_name s))) as (u' & E & H1 & H2).
      * now apply del_nodup.
      * assumption.
      * intros t Ht. destruct (HG t) as [w Hw]; [now right|].
        rewrite (get_del _ sspec) by assumption.
        destruct (String.eqb_spec (s_name s) (s_name t)) as [E|]; [|eauto].
        exfalso; apply N1; rewrite E; now apply in_map.
      * exists u'. split; [assumption|]. split.
        -- intros t [<-|Ht].
           ++ rewrite W, H2 by assumption. rewrite (get_del _ sspec) by assumption.
              now rewrite String.eqb_refl.
           ++ rewrite H1 by assumption. rewrite (get_del _ sspec) by assumption.
              destruct (String.eqb_spec (s_name s) (s_name t)) as [E'|]; [|reflexivity].
              exfalso; apply N1; rewrite E'; now apply in_map.
        -- intros k Hk. rewrite H2 by (intros ?; apply Hk; now right).
           rewrite (get_del _ sspec) by assumption.
           destruct (String.eqb_spec (s_name s) k) as [E'|]; [|reflexivity].
           exfalso; apply Hk; now left.
Qed.

Lemma decode_signal_values_eq l u dc sc (keep : signal -> bool) g : forall acc,
  NoDup (map fst acc ++ map s_name l) ->
  (forall s, In s l -> sget u (s_name s) = if keep s then Some (g s) else None) ->
  decode_signal_values l u dc sc acc =
  let* vs := mapM (fun s => let* v := decode_signal_value s (g s) dc sc in Ok (s_name s, v))
                  (filter keep l) in Ok (acc ++ vs).
Proof.
  induction l as [|s l IH]; cbn [decode_signal_values filter map]; intros acc ND HG.
  - cbn. now rewrite app_nil_r.
  - rewrite HG by now left.
    assert (N := NoDup_remove_2 _ _ _ ND). rewrite in_app_iff in N.
    destruct (keep s); cbn [mapM].
    + destruct (decode_signal_value s (g s) dc sc) as [v|]; cbn [bind]; [|reflexivity].
      rewrite (set_new _ sspec) by tauto.
      rewrite IH.
      * destruct (mapM _ (filter keep l)); cbn [bind]; [|reflexivity]. now rewrite <- app_assoc.
      * rewrite map_app. cbn [map fst]. rewrite <- app_assoc. exact ND.
      * intros; apply HG; now right.
    + apply IH; [|intros; apply HG; now right].
      now apply NoDup_remove_1 in ND.
Qed.

(** Length adjustment in words: exact, extended with 0xff, or cut. *)
Lemma fit_data_ok data n at_ ae d :
  0 <= n -> bytes_ok data -> fit_data data n at_ ae = Ok d ->
  zlen d = n /\ bytes_ok d /\ (zlen data < n -> at_ = true) /\ (n < zlen data -> ae = true) /\
  forall b, 0 <= b < 8 * Z.min n (zlen data) -> payload_bit d b = payload_bit data b.
Proof.
  intros Hn HB. unfold fit_data. destruct (Z.eqb_spec (zlen data) n) as [E|N].
  - intros [= <-]. repeat split; auto; try lia.
  - set (d1 := if at_ then ljust_ff n data else data).
    set (d2 := if ae then firstn (Z.to_nat n) d1 else d1).
    destruct (Z.eqb_spec (zlen d2) n) as [E|]; [|discriminate].
    intros Hd; apply Ok_inj in Hd; rewrite <- Hd; clear Hd d.
    assert (B1 : bytes_ok d1).
    { unfold d1, ljust_ff. destruct at_; [|assumption]. apply Forall_app. split; [assumption|].
      apply Forall_forall. intros x Hx. apply repeat_spec in Hx. rewrite Hx. unfold byte_ok; lia. }
    assert (B2 : bytes_ok d2).
    { unfold d2. destruct ae; [|assumption]. apply Forall_forall. intros x Hx.
      apply (proj1 (Forall_forall _ _) B1). rewrite <- (firstn_skipn (Z.to_nat n)). apply in_or_app. now left. }
    assert (L1 : zlen d1 = if at_ then Z.max n (zlen data) else zlen data).
    { unfold d1, ljust_ff, zlen. destruct at_; [|reflexivity]. rewrite app_length, repeat_length. lia. }
    assert (L2 : zlen d2 = if ae then Z.min n (zlen d1) else zlen d1).
    { unfold d2, zlen. destruct ae; [|reflexivity]. rewrite firstn_length. lia. }
    repeat split; auto.
    + intros. destruct at_; [reflexivity|]. destruct ae; lia.
    + intros. destruct ae; [reflexivity|]. destruct at_; lia.
    + intros b Hb. unfold payload_bit. f_equal.
      assert (nth (Z.to_nat (b / 8)) d2 0 = nth (Z.to_nat (b / 8)) d1 0) as ->.
      { unfold d2. destruct ae; [|reflexivity]. 
        rewrite <- (firstn_skipn (Z.to_nat n) d1) at 2. rewrite app_nth1; [reflexivity|].
        rewrite firstn_length. unfold zlen in *. destruct at_; lia. }
      unfold d1, ljust_ff. destruct at_; [|reflexivity]. apply app_nth1. unfold zlen in *. lia.
Qed.

Lemma fit_data_err data n at_ ae e : fit_data data n at_ ae = Err e -> e = DecodeError.
Proof.
  unfold fit_data. destruct (_ =? _); [discriminate|].
  match goal with |- (if ?c then _ else _) = _ -> _ => destruct c end; congruence.
Qed.

Lemma fit_data_iff data n at_ ae :
  0 <= n -> ((exists d, fit_data data n at_ ae = Ok d) <->
  (zlen data < n -> at_ = true) /\ (n < zlen data -> ae = true)).
Proof.
  intros Hn. unfold fit_data.
  destruct (Z.eqb_spec (zlen data) n) as [E|N]; [split; [lia|eauto]|].
  set (d1 := if at_ then ljust_ff n data else data).
  set (d2 := if ae then firstn (Z.to_nat n) d1 else d1).
  assert (L1 : zlen d1 = if at_ then Z.max n (zlen data) else zlen data).
  { unfold d1, ljust_ff, zlen. destruct at_; [|reflexivity]. rewrite app_length, repeat_length. lia. }
  assert (L2 : zlen d2 = if ae then Z.min n (zlen d1) else zlen d1).
  { unfold d2, zlen. destruct ae; [|reflexivity]. rewrite firstn_length. lia. }
  destruct (Z.eqb_spec (zlen d2) n); split; try eauto.
  - intros _. destruct at_, ae; split; intros; auto; lia.
  - intros [? [=]].
  - intros [H1 H2]. exfalso. destruct at_, ae; lia || (assert (zlen data < n \/ n < zlen data) as [Hc|Hc] by lia; [specialize (H1 Hc)|specialize (H2 Hc)]; congruence || lia).
Qed.

(** decode_data of one node. *)
Theorem decode_data_eq n l fm data dc sc at_ ae :
  node_ok n l -> create_formats l n = Ok fm -> bytes_ok data ->
  decode_data data n l fm dc sc at_ ae =
  let* d := fit_data data n at_ ae in
  mapM (fun s => let* v := decode_signal_value s (read_raw d s) dc sc in Ok (s_name s, v))
       (filter (within (zlen data)) l).
Proof.
  intros OK HF HB. unfold decode_data.
  assert (Hn : 0 <= n) by apply OK.
  destruct (fit_data data n at_ ae) as [d|] eqn:EF; cbn [bind]; [|reflexivity].
  destruct (fit_data_ok _ _ _ _ _ Hn HB EF) as (L & B & T1 & T2 & _).
  destruct (unpack_both_spec _ _ _ _ OK HF B L) as (u & HU & NDu & HG & HNG).
  unfold unpack_both in HU. rewrite HU. cbn [catch bind].
  destruct ((zlen data <? n) && at_) eqn:EC.
  - destruct (remove_truncated_spec (zlen data) l u NDu (no_names _ _ OK)) as (u' & E & H1 & H2).
    { intros s Hs. rewrite HG by assumption. eauto. }
    rewrite E. cbn [bind].
    rewrite (decode_signal_values_eq _ _ _ _ (within (zlen data)) (read_raw d)).
    + destruct (mapM _ _); reflexivity.
    + cbn. apply OK.
    + intros s Hs. rewrite H1, HG by assumption. reflexivity.
  - cbn [bind].
    assert (GE : n <= zlen data).
    { destruct (Z.ltb_spec (zlen data) n); [|lia]. rewrite T1 in EC by assumption. discriminate. }
    rewrite (decode_signal_values_eq _ _ _ _ (within (zlen data)) (read_raw d)).
    + destruct (mapM _ _); reflexivity.
    + cbn. apply OK.
    + intros s Hs. rewrite HG by assumption.
      assert (within (zlen data) s = true) as ->; [|reflexivity].
      unfold within. assert (FT := no_fits _ _ OK s Hs). apply sig_fits_iff in FT; [lia|now apply OK].
Qed.

Lemma read_raw_ext data data' s :
  0 < s_length s ->
  (forall b, occupies s b -> payload_bit data b = payload_bit data' b) ->
  read_raw data s = read_raw data' s.
Proof.
  intros Hl H. unfold read_raw, read_int.
  assert (E : digits (fun k => payload_bit data (bit_pos s k)) (Z.to_nat (s_length s))
            = digits (fun k => payload_bit data' (bit_pos s k)) (Z.to_nat (s_length s))).
  { apply digits_ext. intros i Hi. apply H, occupies_pos. lia. }
  rewrite E. rewrite (H (bit_pos s (s_length s - 1))) by (apply occupies_pos; lia). reflexivity.
Qed.
