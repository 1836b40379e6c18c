(** MsgThms: constructor, order independence, error classes, raw decoding and strict encoding. *)
From Coq Require Import Sorting.Permutation Sorting.Sorted Floats.SpecFloat.
From Verif Require Import Base PyNum Conversion Signal Bitstruct Formats Message LayoutSpec CodecSpec
     DictLemmas BitsLemmas FloatBits FloatRound GenItems NodeProofs CheckSignal TreeProofs MsgProofs
     CheckComplete Construct CodecThms RoundTrip.
Ltac Zify.zify_post_hook ::= Z.div_mod_to_equations.

(** ** Constructor *)
Lemma bit_length_le z n : 0 <= n -> (bit_length z <= n <-> - 2 ^ n < z < 2 ^ n).
Proof.
  intros Hn. unfold bit_length. assert (0 < 2 ^ n) by (apply Z.pow_pos_nonneg; lia).
  destruct (Z.eqb_spec z 0) as [->|NZ]; [split; lia|].
  assert (L : Z.log2 (Z.abs z) < n <-> Z.abs z < 2 ^ n) by (symmetry; apply Z.log2_lt_pow2; lia).
  split; intros H1; [assert (Z.abs z < 2 ^ n) by (apply L; lia); lia|].
  assert (Z.log2 (Z.abs z) < n) by (apply L; lia). lia.
Qed.

(** Frame ids as documented. *)
Definition frame_id_ok (extended : bool) (fid : Z) : Prop :=
  let w := if extended then 29 else 11 in - 2 ^ w < fid < 2 ^ w.

Lemma frame_id_check (ext : bool) fid :
  (if ext then 29 <? bit_length fid else 11 <? bit_length fid) = false <-> frame_id_ok ext fid.
Proof.
  unfold frame_id_ok. destruct ext; rewrite Z.ltb_ge; apply bit_length_le; lia.
Qed.

Theorem mk_message_basic fid ext name len unused sigs strict sort m :
  mk_message fid ext name len unused sigs strict sort = Ok m ->
  frame_id_ok ext fid /\ m_signals m = apply_sort sort sigs /\ m_length m = len /\ m_unused m = unused /\
  m_frame_id m = fid /\ m_extended m = ext /\ m_name m = name /\ m_strict m = strict /\
  forall s, In s (apply_sort sort sigs) -> 0 < s_length s.
Proof.
  intros H. unfold mk_message in H. destruct (if ext then _ else _) eqn:E in H; [discriminate|].
  apply frame_id_check in E. apply bind_ok in H. destruct H as ([c t] & HR & H). apply Ok_inj in H. subst m.
  repeat (split; [reflexivity || assumption|]). unfold refresh in HR. apply bind_ok in HR. destruct HR as ([] & HL & _).
  now apply check_lengths_iff.
Qed.

Theorem mk_message_iff fid ext name len unused sigs :
  0 <= len -> names_unique sigs -> (forall s, In s sigs -> 0 <= s_start s) ->
  (exists m, mk_message fid ext name len unused sigs true SortDefault = Ok m) <->
  (frame_id_ok ext fid /\ (forall s, In s sigs -> 0 < s_length s) /\
   (forall mv s, active sigs mv s -> conv_is_float (s_conv s) = true -> float_size_ok (s_length s) = true) /\
   layout_ok sigs len).
Proof.
  intros Hn U SP. assert (P := sort_default_perm sigs).
  assert (U' : names_unique (sort_signals_by_start_bit sigs)) by (apply (le_sorted_perm_names sigs); [now symmetry|assumption]).
  assert (SP' : forall s, In s (sort_signals_by_start_bit sigs) -> 0 <= s_start s).
  { intros s Hs. apply SP. now apply (Permutation_in _ P). }
  split.
  - intros [m H]. destruct (mk_message_basic _ _ _ _ _ _ _ _ _ H) as (F & ES & EL & _ & _ & _ & _ & _ & LP).
    destruct (mk_message_ok fid ext name len unused sigs SortDefault m Hn) as (OK & _); auto.
    { cbn. apply sort_default_le. }
    split; [assumption|]. cbn [apply_sort] in *. split; [|split].
    + intros s Hs. apply LP. apply (Permutation_in _ (Permutation_sym P)). assumption.
    + intros mv s A. apply (active_perm _ _ _ _ (Permutation_sym P)) in A. rewrite <- ES in A.
      now destruct (active_kind m mv s OK A).
    + apply (layout_ok_perm (m_signals m)); [now rewrite ES|]. rewrite <- EL. apply OK.
  - intros (F & LP & K & LO). unfold mk_message. rewrite (proj2 (frame_id_check ext fid) F). cbn [apply_sort].
    destruct (refresh_complete (sort_signals_by_start_bit sigs) len Hn U' SP') as (c & t & HR).
    + intros s Hs. apply LP. now apply (Permutation_in _ P).
    + intros mv s A. apply (active_perm _ _ _ _ P) in A. split; [apply LP; now apply active_in in A|now apply (K mv)].
    + apply (layout_ok_perm sigs); [now symmetry|assumption].
    + rewrite HR. cbn [bind]. eauto.
Qed.

(** ** Order of the signal list *)
Lemma known_perm l l' m i : Permutation l l' -> known_id l m i -> known_id l' m i.
Proof.
  intros P [(c & ids & H1 & H2 & H3 & H4)|H]; [left|right; assumption].
  exists c, ids. split; [now apply (Permutation_in _ P)|auto].
Qed.

Lemma find_perm l l' k : Permutation l l' -> names_unique l -> find_signal l k = find_signal l' k.
Proof.
  intros P U. assert (U' : names_unique l') by (eapply le_sorted_perm_names; eauto).
  destruct (find_signal l k) as [s|] eqn:E.
  - apply find_signal_some in E. destruct E as [HI <-]. symmetry. apply find_signal_in; [assumption|].
    now apply (Permutation_in _ P).
  - destruct (find_signal l' k) as [s|] eqn:E'; [|reflexivity]. apply find_signal_some in E'. destruct E' as [HI <-].
    rewrite find_signal_in in E; [discriminate|assumption|]. now apply (Permutation_in _ (Permutation_sym P)).
Qed.

Lemma selectors_perm l l' d k : Permutation l l' -> names_unique l -> selectors l d k = selectors l' d k.
Proof. intros P U. unfold selectors. now rewrite (find_perm l l'). Qed.

Lemma active_perm_iff l l' d s : Permutation l l' -> names_unique l ->
  active l (selectors l d) s <-> active l' (selectors l' d) s.
Proof.
  intros P U. assert (U' : names_unique l') by (eapply le_sorted_perm_names; eauto). split; intros A.
  - apply (active_perm _ _ _ _ P) in A. revert A. apply active_ext; [assumption|].
    intros t _. now apply selectors_perm.
  - apply (active_perm _ _ _ _ (Permutation_sym P)) in A. revert A. apply active_ext; [assumption|].
    intros t _. symmetry. now apply selectors_perm.
Qed.

Lemma selector_known_perm l l' d s : Permutation l l' -> names_unique l ->
  selector_known l (selectors l d) s -> selector_known l' (selectors l' d) s.
Proof.
  intros P U H Em [i Hi]. destruct (H Em) as (v & V1 & V2).
  - exists i. now apply (known_perm _ _ _ _ (Permutation_sym P)).
  - exists v. split; [now rewrite <- (selectors_perm l l')|]. now apply (known_perm _ _ _ _ P).
Qed.

(** Two messages that differ only in the order of their signals. *)
Definition same_signals (m m' : message) : Prop :=
  Permutation (m_signals m) (m_signals m') /\ m_length m = m_length m' /\ m_unused m = m_unused m'.

Lemma same_signals_sym m m' : same_signals m m' -> same_signals m' m.
Proof. intros (P & L & U). split; [now symmetry|auto]. Qed.

Lemma frame_for_perm m m' d sc pad b : msg_ok m -> same_signals m m' ->
  frame_for m d sc pad b -> frame_for m' d sc pad b.
Proof.
  intros OK (P & L & U) [F1 F2 F3 F4 F5].
  assert (A := fun s => active_perm_iff _ _ d s P (mo_names _ OK)).
  split; rewrite <- ?L, <- ?U; auto.
  - intros s H. apply A in H. apply (selector_known_perm _ _ _ _ P (mo_names _ OK)). auto.
  - intros s H. apply A in H. auto.
  - intros b0 Hb HN. apply F5; [assumption|]. intros s H. apply HN. now apply A.
Qed.

Lemma decoded_perm m m' data dc sc out : msg_ok m -> same_signals m m' ->
  decoded m data dc sc out -> decoded m' data dc sc out.
Proof.
  intros OK (P & L & U) [D1 D2 D3 D4].
  assert (A := fun s => active_perm_iff _ _ out s P (mo_names _ OK)).
  split; auto.
  - intros s H. apply A in H. auto.
  - intros k v Hk. destruct (D3 k v Hk) as (s & S1 & S2). exists s. split; [now apply A|assumption].
  - intros s H W. apply A in H. apply (selector_known_perm _ _ _ _ P (mo_names _ OK)). auto.
Qed.

Section Order.
  Variables m m' : message.
  Hypothesis OK : msg_ok m.
  Hypothesis OK' : msg_ok m'.
  Hypothesis BC : forall s, In s (m_signals m) -> built_conv (s_conv s).
  Hypothesis SS : same_signals m m'.

  Lemma BC' : forall s, In s (m_signals m') -> built_conv (s_conv s).
  Proof. intros s Hs. apply BC. apply (Permutation_in _ (Permutation_sym (proj1 SS)) Hs). Qed.

  Theorem encode_order d sc (pad : bool) b :
    (pad = true -> 0 <= m_unused m < 256) ->
    encode m d sc pad false = Ok b -> encode m' d sc pad false = Ok b.
  Proof.
    intros HP H. assert (F := encode_frame m OK BC _ _ _ _ _ H).
    assert (F' := frame_for_perm _ _ _ _ _ _ OK SS F).
    destruct (encode_complete m' OK' BC' d sc pad) as [b' Hb'].
    - destruct SS as (_ & _ & <-). assumption.
    - apply F'.
    - intros s A. destruct (ff_bits _ _ _ _ _ F' s A) as (v & raw & x & V1 & V2 & V3 & _). eauto 8.
    - assert (F2 := encode_frame m' OK' BC' _ _ _ _ _ Hb').
      rewrite Hb'. f_equal. now apply (frame_for_unique m' d sc pad).
  Qed.

  Theorem decode_order data dc sc at_ ae out :
    (dc = true -> sc = true -> plain_tables m) -> bytes_ok data ->
    decode m data dc sc at_ ae = Ok out ->
    exists out', decode m' data dc sc at_ ae = Ok out' /\ forall k, sget out k = sget out' k.
  Proof.
    intros PT BO H. destruct (decode_spec m OK BC dc sc PT data at_ ae out BO H) as (D & L1 & L2).
    assert (D' := decoded_perm _ _ _ _ _ _ OK SS D).
    assert (PT' : dc = true -> sc = true -> plain_tables m').
    { intros E1 E2 s Hs. apply (PT E1 E2). apply (Permutation_in _ (Permutation_sym (proj1 SS)) Hs). }
    destruct (decode_complete m' OK' BC' dc sc PT' data at_ ae out BO) as [out' HO]; auto.
    - destruct SS as (_ & <- & _). assumption.
    - destruct SS as (_ & <- & _). assumption.
    - exists out'. split; [assumption|].
      destruct (decode_spec m' OK' BC' dc sc PT' data at_ ae out' BO HO) as (D2 & _).
      now apply (decoded_unique m' data dc sc).
  Qed.
End Order.

(** ** Error classes *)
Lemma get_mux_err all d name v e :
  names_unique all -> sget d name = Some v -> (exists s, In s all /\ s_name s = name) ->
  (forall x, v = VNum x -> exists z, py_int x = Ok z) ->
  get_mux_number all d name = Err e -> e = EncodeError.
Proof.
  intros U Hv (s & Hs & En) HI H. unfold get_mux_number, sget_exn in H. rewrite Hv in H. cbn [bind] in H.
  assert (G : forall l, (let* sg := get_signal all name in
      catch (choice_to_number (s_conv sg) l) (fun e => exn_eqb e KeyError) (Err EncodeError)) = Err e -> e = EncodeError).
  { intros l. rewrite <- En, get_signal_in by assumption. cbn [bind].
    destruct (choice_to_number (s_conv s) l) as [z|e'] eqn:E; cbn [catch]; [discriminate|].
    assert (e' = KeyError).
    { destruct (s_conv s); cbn in E; [congruence|]. unfold sget_exn in E. destruct (sget inverse l); congruence. }
    subst e'. cbn. congruence. }
  destruct v as [x|l|z l]; [|eapply G; exact H|eapply G; exact H].
  destruct (HI x eq_refl) as [z Hz]. congruence.
Qed.

(** Numbers given for multiplexers are finite. *)
Definition mux_values_finite (all : list signal) (d : list (string * value)) : Prop :=
  forall s x, In s all -> s_is_mux s = true -> sget d (s_name s) = Some (VNum x) -> exists z, py_int x = Ok z.

Lemma gather_err all n d p mid c e :
  names_unique all -> mux_values_finite all d -> wfc all n p mid c ->
  gather_node all c d = Err e -> e = EncodeError.
Proof.
  intros U MF W. induction W as [p mid fm muxes HF ND SH CO SUB IH]. intros H.
  rewrite gather_node_eq' in H.
  assert (NDH : NoDup (map s_name (filter (belongs p mid) all))) by now apply NoDup_filter_map.
  rewrite gather_own_spec in H by assumption.
  destruct (mapM _ (filter (belongs p mid) all)) as [own|e1] eqn:EO; cbn [bind] in H.
  - destruct (mapM (gath_branch all d) muxes) as [subs|e2] eqn:ES; cbn [bind] in H; [discriminate|].
    assert (e2 = e) by congruence. subst e2. apply mapM_err in ES. destruct ES as ([name bs] & HI & HB).
    unfold gath_branch in HB. cbn [fst snd] in HB.
    destruct (SH _ _ HI) as (m & Hm & En & Em & _). apply filter_In in Hm as Hm'. destruct Hm' as [Hma _].
    destruct (get_mux_number all d name) as [z|e3] eqn:EG; cbn [bind] in HB.
    + destruct (zget bs z) as [c'|] eqn:EZ; [|congruence]. apply (get_in _ zspec) in EZ. eapply IH; eauto.
    + assert (e3 = e) by congruence. subst e3.
      apply mapM_ok in EO. destruct (Forall2_in_l _ _ _ m EO Hm) as (y & _ & Hy).
      destruct (sget d (s_name m)) as [v|] eqn:EV; [|discriminate].
      rewrite En in EV. apply (get_mux_err all d name v e U EV); [exists m; auto| |exact EG].
      intros x ->. rewrite <- En in EV. apply (MF m x Hma Em EV).
  - assert (e1 = e) by congruence. subst e1. apply mapM_err in EO. destruct EO as (s & _ & HB).
    destruct (sget d (s_name s)); congruence.
Qed.

Lemma encode_node_err all n d sc p mid c e :
  names_unique all -> wfc all n p mid c -> codec_ok n c ->
  (forall s, In s (sel_list (mux_of all d) c) -> exists x, sig_digits d sc s x) ->
  (forall s, In s (sel_list (mux_of all d) c) -> s_is_mux s = true -> mux_of all d (s_name s) <> None) ->
  encode_node all c d sc = Err e -> e = EncodeError.
Proof.
  intros U W. induction W as [p mid fm muxes HF ND SH CO SUB IH]. intros COK HX HM H.
  assert (W' : wfc all n p mid (Codec (filter (belongs p mid) all) fm muxes)) by (constructor; auto).
  inversion COK as [? ? ? NOK HF' CSUB]; subst.
  rewrite encode_node_eq' in H.
  destruct (proj2 (encode_data_ok n (filter (belongs p mid) all) fm d sc NOK HF)) as [e0 He].
  { intros s Hs. destruct (HX s) as (x & raw & H1 & H2); [|eauto].
    apply (sel_list_muxes _ _ _ _ _ _ _ _ U W'). now left. }
  rewrite He in H. cbn [bind] in H.
  destruct (mapM (enc_branch all d sc) muxes) as [subs|e2] eqn:ES; cbn [bind] in H; [discriminate|].
  assert (e2 = e) by congruence. subst e2. apply mapM_err in ES. destruct ES as ([name bs] & HI & HB).
  unfold enc_branch in HB. cbn [fst snd] in HB.
  destruct (SH _ _ HI) as (m & Hm & En & Em & _).
  assert (HMs : In m (sel_list (mux_of all d) (Codec (filter (belongs p mid) all) fm muxes))).
  { apply (sel_list_muxes _ _ _ _ _ _ _ _ U W'). now left. }
  destruct (get_mux_number all d name) as [z|e3] eqn:EG; cbn [bind] in HB.
  - destruct (zget bs z) as [c'|] eqn:EZ; [|congruence]. assert (EZ' := EZ). apply (get_in _ zspec) in EZ.
    assert (SUBS : forall s, In s (sel_list (mux_of all d) c') -> In s (sel_list (mux_of all d) (Codec (filter (belongs p mid) all) fm muxes))).
    { intros s Hs. apply (sel_list_muxes _ _ _ _ _ _ _ _ U W'). right. exists name, bs, z, c'.
      repeat split; auto. unfold mux_of. now rewrite EG. }
    eapply IH; eauto.
  - exfalso. apply (HM m HMs Em). unfold mux_of. rewrite En. now rewrite EG.
Qed.

Theorem encode_bad_selector m d sc pad :
  msg_ok m -> (forall s, In s (m_signals m) -> built_conv (s_conv s)) ->
  (forall s, active (m_signals m) (selectors (m_signals m) d) s ->
     exists v raw x, sget d (s_name s) = Some v /\ raw_value s sc v raw /\ raw_bits s raw x) ->
  (forall s, active (m_signals m) (selectors (m_signals m) d) s -> s_is_mux s = true ->
     selectors (m_signals m) d (s_name s) <> None) ->
  (exists s, active (m_signals m) (selectors (m_signals m) d) s /\ ~ selector_known (m_signals m) (selectors (m_signals m) d) s) ->
  encode m d sc pad false = Err EncodeError.
Proof.
  intros OK BC HV HS (s & A & NK). destruct (encode m d sc pad false) as [b|e] eqn:E.
  - exfalso. apply NK. assert (F := encode_frame m OK BC _ _ _ _ _ E). now apply F.
  - f_equal. unfold encode in E. cbn [bind] in E.
    destruct (encode_node (m_signals m) (m_codec m) d sc) as [[e0 mk]|e1] eqn:EN.
    + exfalso. apply NK.
      destruct (encode_node_spec (m_signals m) (m_length m) d sc None None (m_codec m) (mo_len _ OK) (mo_names _ OK) (mo_wfc _ OK) (mo_cok _ OK) e0 mk EN) as [_ G].
      exact (proj1 (good_d m OK BC d) G s A).
    + cbn [bind] in E. assert (e1 = e) by congruence. subst e1.
      eapply (encode_node_err (m_signals m) (m_length m) d sc None None (m_codec m)); [apply OK|apply OK|apply OK| | |exact EN].
      * intros t Ht. apply (sel_in m OK BC) in Ht as HA. apply (sel_d m OK BC) in Ht.
        destruct (HV t Ht) as (v & raw & x & V1 & V2 & V3). destruct (raw_bits_pack _ _ _ V3) as [y Hy]. exists y, raw.
        split; [|assumption]. apply sig_raw_spec; eauto.
      * intros t Ht Et. apply (sel_in m OK BC) in Ht as HA. apply (sel_d m OK BC) in Ht.
        rewrite mux_of_selectors; auto. apply OK.
Qed.

(** ** Unscaled decoding *)

(** Multiplexer values contained in a payload. *)
Definition payload_selectors (all : list signal) (data : list Z) (name : string) : option Z :=
  match find_signal all name with
  | Some s => match py_int (read_raw data s) with Ok z => Some z | Err _ => None end
  | None => None
  end.

Lemma raw_shown s raw v : shown_value s false false raw v <-> v = VNum raw.
Proof. unfold shown_value. destruct (conv_choices (s_conv s)); reflexivity. Qed.

Lemma decoded_raw m data out :
  msg_ok m -> m_length m <= zlen data -> decoded m data false false out ->
  (forall k v, sget out k = Some v <->
     exists s, active (m_signals m) (payload_selectors (m_signals m) data) s /\ s_name s = k /\ v = VNum (read_raw data s)) /\
  (forall s, active (m_signals m) (payload_selectors (m_signals m) data) s ->
     selector_known (m_signals m) (payload_selectors (m_signals m) data) s).
Proof.
  intros OK LEN [D1 D2 D3 D4]. set (all := m_signals m) in *.
  assert (FITS : forall mv s, active all mv s -> sig_within (zlen data) s).
  { intros mv s A b Ob. destruct (mo_layout _ OK mv s A) as [FIT _]. assert (B := FIT b Ob). lia. }
  assert (EQ : forall t, active all (selectors all out) t -> selectors all out (s_name t) = payload_selectors all data (s_name t)).
  { intros t A. destruct (D2 t A (FITS _ _ A)) as (v & V1 & V2). apply raw_shown in V2. subst v.
    unfold selectors, payload_selectors. rewrite find_signal_in; [|apply OK|now apply active_in in A]. now rewrite V1. }
  assert (AEQ : forall s, active all (selectors all out) s <-> active all (payload_selectors all data) s).
  { intros s. now apply active_ext2. }
  split.
  - intros k v. split.
    + intros Hk. destruct (D3 k v Hk) as (s & A & W & <-). exists s. split; [now apply AEQ|]. split; [reflexivity|].
      destruct (D2 s A W) as (v' & V1 & V2). apply raw_shown in V2. congruence.
    + intros (s & A & <- & ->). apply AEQ in A. destruct (D2 s A (FITS _ _ A)) as (v' & V1 & V2).
      apply raw_shown in V2. congruence.
  - intros s A. apply AEQ in A as A'. intros Em X. destruct (D4 s A' (FITS _ _ A') Em X) as (v & V1 & V2).
    exists v. rewrite <- EQ; auto.
Qed.

Lemma decoded_raw_ex m data :
  msg_ok m -> m_length m <= zlen data ->
  (forall s, active (m_signals m) (payload_selectors (m_signals m) data) s ->
     selector_known (m_signals m) (payload_selectors (m_signals m) data) s) ->
  exists out, decoded m data false false out.
Proof.
  intros OK LEN HK. set (all := m_signals m) in *. set (mv := payload_selectors all data) in *.
  destruct (build_dict (active_list m mv) (fun s v => v = VNum (read_raw data s))) as (out & O1 & O2 & O3).
  { now apply active_list_names. }
  { eauto. }
  assert (EQ : forall t, active all mv t -> mv (s_name t) = selectors all out (s_name t)).
  { intros t A. assert (Ht := active_in _ _ _ A). apply (active_list_in m mv t OK) in A. destruct (O2 t A) as (v & V1 & ->).
    unfold mv, payload_selectors, selectors. rewrite find_signal_in by (auto; apply OK). now rewrite V1. }
  assert (AEQ : forall s, active all mv s <-> active all (selectors all out) s) by (intros s; now apply active_ext2).
  assert (FITS : forall mv s, active all mv s -> sig_within (zlen data) s).
  { intros mv0 s A b Ob. destruct (mo_layout _ OK mv0 s A) as [FIT _]. assert (B := FIT b Ob). lia. }
  exists out. split; fold all.
  - rewrite O1. now apply active_list_names.
  - intros s A _. apply AEQ in A. apply (active_list_in m mv s OK) in A. destruct (O2 s A) as (v & V1 & ->).
    exists (VNum (read_raw data s)). split; [assumption|]. now apply raw_shown.
  - intros k v Hk. destruct (O3 k v Hk) as (s & Hs & E). apply (active_list_in m mv s OK) in Hs.
    exists s. split; [now apply AEQ|]. split; [eapply FITS; eauto|assumption].
  - intros s A _. apply AEQ in A as A'. intros Em X. destruct (HK s A' Em X) as (v & V1 & V2). exists v.
    rewrite <- EQ; auto.
Qed.

Theorem decode_raw m data at_ ae :
  msg_ok m -> (forall s, In s (m_signals m) -> built_conv (s_conv s)) ->
  bytes_ok data -> zlen data = m_length m ->
  (forall out, decode m data false false at_ ae = Ok out ->
     NoDup (map fst out) /\
     forall k v, sget out k = Some v <->
       exists s, active (m_signals m) (payload_selectors (m_signals m) data) s /\ s_name s = k /\ v = VNum (read_raw data s)) /\
  ((exists out, decode m data false false at_ ae = Ok out) <->
   forall s, active (m_signals m) (payload_selectors (m_signals m) data) s ->
     selector_known (m_signals m) (payload_selectors (m_signals m) data) s).
Proof.
  intros OK BC BO LEN.
  assert (PT : false = true -> false = true -> plain_tables m) by discriminate.
  split; [|split].
  - intros out H. destruct (decode_spec m OK BC false false PT data at_ ae out BO H) as (D & _).
    split; [apply D|]. apply (decoded_raw m data out OK); [lia|assumption].
  - intros [out H]. destruct (decode_spec m OK BC false false PT data at_ ae out BO H) as (D & _).
    apply (decoded_raw m data out OK); [lia|assumption].
  - intros HK. destruct (decoded_raw_ex m data OK) as [out D]; [lia|assumption|].
    apply (decode_complete m OK BC false false PT data at_ ae out BO); [intros; lia|intros; lia|assumption].
Qed.

(** Unscaled decoding fails with DecodeError only. *)
Lemma decode_node_err all n data at_ ae pd p mid c e :
  0 <= n -> names_unique all -> wfc all n p mid c -> codec_ok n c -> bytes_ok data ->
  fit_data data n at_ ae = Ok pd ->
  (forall s, In s all -> s_is_mux s = true -> conv_is_float (s_conv s) = false) ->
  decode_node all n c data false false at_ ae = Err e -> e = DecodeError.
Proof.
  intros Hn U W COK BO FD NF. revert COK e. induction W as [p mid fm muxes HF ND SH CO SUB IH]. intros COK e H.
  assert (W' : wfc all n p mid (Codec (filter (belongs p mid) all) fm muxes)) by (constructor; auto).
  inversion COK as [? ? ? NOK HF' CSUB]; subst.
  set (here := filter (belongs p mid) all) in *.
  rewrite decode_node_eq, decode_data_eq in H by assumption. rewrite FD in H. cbn [bind] in H.
  assert (EO : mapM (fun s => let* v := decode_signal_value s (read_raw pd s) false false in Ok (s_name s, v)) (filter (within (zlen data)) here)
     = Ok (map (fun s => (s_name s, VNum (read_raw pd s))) (filter (within (zlen data)) here))).
  { generalize (filter (within (zlen data)) here). induction l as [|s l IHl]; [reflexivity|]. cbn [mapM map].
    rewrite IHl. reflexivity. }
  rewrite EO in H. cbn [bind] in H.
  set (own := map (fun s => (s_name s, VNum (read_raw pd s))) (filter (within (zlen data)) here)) in *.
  (* values of multiplexers in the accumulator *)
  set (good_acc := fun acc : list (string * value) =>
     (forall s v, In s all -> s_is_mux s = true -> sget acc (s_name s) = Some v -> exists z, v = VNum (NInt z)) /\
     (forall s, In s here -> within (zlen data) s = true -> exists v, sget acc (s_name s) = Some v)).
  assert (NDH : NoDup (map s_name here)) by now apply NoDup_filter_map.
  assert (G0 : good_acc own).
  { split.
    - intros s v Hs Em Hv. apply (get_in _ sspec) in Hv. apply in_map_iff in Hv. destruct Hv as (t & [= E1 <-] & Ht).
      apply filter_In in Ht. destruct Ht as [Ht _]. apply filter_In in Ht. destruct Ht as [Ht _].
      assert (t = s) by (apply (NoDup_map_inj s_name all); auto). subst t.
      unfold read_raw. rewrite NF by assumption. eauto.
    - intros s Hs Hw. exists (VNum (read_raw pd s)). apply (in_get _ sspec).
      + unfold own. rewrite map_map. cbn. now apply NoDup_filter_map.
      + apply in_map_iff. exists s. split; [reflexivity|]. now apply filter_In. }
  revert H. generalize own G0. clear G0 EO own.
  assert (SHL : forall x, In x muxes -> In x muxes) by auto. revert SHL.
  generalize muxes at 1 3 as ms. induction ms as [|[name bs] ms IHm]; intros HI acc G H; [discriminate|].
  cbn [foldM fst snd] in H.
  assert (HIn : In (name, bs) muxes) by (apply HI; now left).
  destruct (SH _ _ HIn) as (m & Hm & En & Em & _). subst name.
  assert (Hma : In m all) by (apply filter_In in Hm; tauto).
  destruct (at_ && negb (smem acc (s_name m))) eqn:ET; cbn [bind] in H.
  - eapply IHm; eauto. intros x Hx. apply HI. now right.
  - destruct (sget acc (s_name m)) as [v|] eqn:EV.
    + destruct (proj1 G m v Hma Em EV) as [z ->].
      assert (EM : get_mux_number all acc (s_name m) = Ok z) by (unfold get_mux_number, sget_exn; now rewrite EV).
      rewrite EM in H. cbn [bind] in H.
      destruct (zget bs z) as [c'|] eqn:EZ; cbn [bind] in H; [|congruence].
      apply (get_in _ zspec) in EZ.
      destruct (decode_node all n c' data false false at_ ae) as [sub|e2] eqn:ED; cbn [bind] in H.
      * eapply IHm; [| |exact H]; [intros x Hx; apply HI; now right|].
        destruct (decode_node_spec all n data false false at_ ae pd _ _ c' Hn U (SUB _ _ _ _ HIn EZ) (CSUB _ _ _ _ HIn EZ) BO FD) as [S1 _].
        destruct (S1 sub ED) as ([NDS RS] & _).
        split.
        -- intros s v Hs Es. rewrite (get_upd _ sspec) by assumption.
           destruct (sget sub (s_name s)) as [w|] eqn:EW; [|apply (proj1 G); auto].
           intros [= <-]. destruct (RS (s_name s)) as [R1 R2].
           destruct (name_in_list_dec (sel_list (mux_dec all false false pd (zlen data)) c') (s_name s)) as [NI|NI].
           ++ rewrite R1 in EW by exact NI. unfold dval in EW. rewrite get_signal_in in EW by assumption.
              destruct (within (zlen data) s); [|discriminate]. cbn in EW. injection EW as <-.
              unfold read_raw. rewrite NF by assumption. eauto.
           ++ rewrite R2 in EW; [discriminate|]. intros t Ht Et. apply NI. exists t; auto.
        -- intros s Hs Hw. rewrite (get_upd _ sspec) by assumption. destruct (proj2 G s Hs Hw) as [v Hv].
           destruct (sget sub (s_name s)); eauto.
      * assert (e2 = e) by congruence. subst e2. eapply IH; eauto.
    + (* not truncated, so every own signal is there *)
      exfalso. assert (EM : smem acc (s_name m) = false) by (unfold dmem; now rewrite EV).
      rewrite EM in ET. rewrite andb_true_r in ET. subst at_.
      destruct (proj1 (fit_data_iff data n false ae Hn) (ex_intro _ _ FD)) as [T1 _].
      assert (LEN : n <= zlen data).
      { destruct (Z.lt_ge_cases (zlen data) n) as [HL|]; [specialize (T1 HL); discriminate|lia]. }
      destruct (proj2 G m Hm) as [v Hv]; [|congruence].
      assert (FT := no_fits _ _ NOK m Hm). apply sig_fits_iff in FT; [unfold within; lia|now apply NOK].
Qed.

Theorem decode_raw_err m data at_ ae e :
  msg_ok m -> (forall s, In s (m_signals m) -> built_conv (s_conv s)) -> bytes_ok data ->
  (forall s, In s (m_signals m) -> s_is_mux s = true -> conv_is_float (s_conv s) = false) ->
  decode m data false false at_ ae = Err e -> e = DecodeError.
Proof.
  intros OK BC BO NF H. destruct (fit_data data (m_length m) at_ ae) as [pd|e'] eqn:FD.
  - unfold decode in H. eapply decode_node_err; eauto; apply OK.
  - unfold decode in H. apply fit_data_err in FD as E. subst e'. assert (COK := mo_cok _ OK). destruct (m_codec m) as [sigs fm muxes].
    inversion COK; subst. rewrite decode_node_eq, decode_data_eq in H by assumption. rewrite FD in H. cbn in H. congruence.
Qed.
