(** DecodeErr: which exceptions the decoding of a codec tree can raise. *)
From Verif Require Import Base PyNum Conversion Signal Bitstruct Formats Message LayoutSpec
     DictLemmas BitsLemmas GenItems NodeProofs CheckSignal TreeProofs MsgProofs.

(** If every value can be decoded and every multiplexer value is a number, decoding fails with DecodeError only. *)
Lemma decode_node_err all n data dc sc at_ ae pd p mid c :
  0 <= n -> names_unique all -> wfc all n p mid c -> codec_ok n c -> bytes_ok data ->
  fit_data data n at_ ae = Ok pd ->
  (forall s, In s all -> exists v, decode_signal_value s (read_raw pd s) dc sc = Ok v) ->
  (forall s v, In s all -> s_is_mux s = true -> decode_signal_value s (read_raw pd s) dc sc = Ok v -> exists z, get_mux_number all [(s_name s, v)] (s_name s) = Ok z) ->
  forall e, decode_node all n c data dc sc at_ ae = Err e -> e = DecodeError.
Proof.
  intros Hn U W COK HB HFD HV HM. set (nb := zlen data). set (mv := mux_dec all dc sc pd nb).
  assert (GS : forall s, In s all -> get_signal all (s_name s) = Ok s) by (intros; now apply get_signal_in).
  induction W as [p mid fm muxes HF ND SH CO SUB IH].
  inversion COK as [? ? ? NOK HF' CSUB]; subst. set (here := filter (belongs p mid) all) in *.
  assert (HIN : forall s, In s here -> In s all) by (intros s Hs; apply filter_In in Hs; tauto).
  assert (NDH : NoDup (map s_name here)) by now apply NoDup_filter_map.
  assert (DV : forall s, In s all -> dval all dc sc pd nb (s_name s) =
     if within nb s then match decode_signal_value s (read_raw pd s) dc sc with Ok v => Some v | Err _ => None end else None).
  { intros s Hs. unfold dval. now rewrite GS. }
  assert (FULL : at_ = false -> forall s, In s here -> within nb s = true).
  { intros Eat s Hs. destruct (proj1 (fit_data_iff data n at_ ae Hn) (ex_intro _ _ HFD)) as [T1 _].
    assert (n <= nb). { destruct (Z.lt_ge_cases (zlen data) n); [|unfold nb; lia]. rewrite T1 in Eat by assumption. discriminate. }
    assert (FT := no_fits _ _ NOK s Hs). apply sig_fits_iff in FT; [unfold within; lia|now apply NOK]. }
  intros e HE. rewrite decode_node_eq, decode_data_eq in HE by assumption. rewrite HFD in HE. cbn [bind] in HE. fold nb in HE.
  assert (exists own, mapM (fun s => let* v := decode_signal_value s (read_raw pd s) dc sc in Ok (s_name s, v)) (filter (within nb) here) = Ok own) as [own Hown].
  { apply mapM_ok_ex. apply Forall_forall. intros s Hs. apply filter_In in Hs. destruct (HV s (HIN s (proj1 Hs))) as [v ->]. cbn. eauto. }
  rewrite Hown in HE. cbn [bind] in HE.
  assert (OWN : restricts (dval all dc sc pd nb) (fun s => In s here) own).
  { apply mapM_ok in Hown.
    assert (KEYS : map fst own = map s_name (filter (within nb) here)).
    { clear -Hown. induction Hown as [|s x l l' HB H IH]; [reflexivity|]. cbn. apply bind_ok in HB. destruct HB as (v & _ & [= <-]). cbn. now f_equal. }
    assert (VAL : forall s, In s here -> within nb s = true -> exists v, decode_signal_value s (read_raw pd s) dc sc = Ok v /\ In (s_name s, v) own).
    { intros s Hs Hw. destruct (Forall2_in_l _ _ _ s Hown) as (x & Hx & HBd); [now apply filter_In|]. apply bind_ok in HBd. destruct HBd as (v & Hv & [= <-]). eauto. }
    assert (NDO : NoDup (map fst own)) by (rewrite KEYS; now apply NoDup_filter_map).
    split; [assumption|]. intros k. split.
    + intros (s & Hs & <-). rewrite DV by auto. destruct (within nb s) eqn:Ew.
      * destruct (VAL s Hs Ew) as (v & E1 & E2). rewrite E1. now apply (in_get _ sspec).
      * apply (get_none _ sspec). rewrite KEYS. intros HI. apply in_map_iff in HI. destruct HI as (t & E & Ht). apply filter_In in Ht. destruct Ht as [Ht Et].
        assert (t = s) by (apply (NoDup_map_inj s_name here); auto). subst t. congruence.
    + intros HN. apply (get_none _ sspec). rewrite KEYS. intros HI. apply in_map_iff in HI. destruct HI as (s & E & Hs). apply filter_In in Hs. now apply (HN s). }
  clear Hown. revert HE.
  assert (GEN : forall ms, (forall x, In x ms -> In x muxes) -> forall (P : signal -> Prop) acc,
     (forall k, name_in P k \/ ~ name_in P k) -> (forall s, In s here -> P s) -> restricts (dval all dc sc pd nb) P acc ->
     foldM (fun acc (nbr : string * list (Z * codec)) =>
           if at_ && negb (smem acc (fst nbr)) then Ok acc
           else let* m := get_mux_number all acc (fst nbr) in
                let* sub := match zget (snd nbr) m with Some c' => decode_node all n c' data dc sc at_ ae | None => Err DecodeError end in
                Ok (supdate acc sub)) ms acc = Err e -> e = DecodeError).
  { clear own OWN. induction ms as [|[name bs] ms IHm]; intros HI P acc DP HP HR HE; cbn [foldM] in HE; [discriminate|].
    assert (HIM := HI _ (or_introl eq_refl)). destruct (SH _ _ HIM) as (m & Hm & En & Emux & _). subst name. cbn [fst snd] in HE.
    assert (HG : sget acc (s_name m) = dval all dc sc pd nb (s_name m)) by (apply (proj1 (proj2 HR (s_name m))); exists m; auto).
    rewrite DV in HG by auto. destruct (HV m (HIN m Hm)) as [v Hv]. rewrite Hv in HG. destruct (within nb m) eqn:Ew.
    - assert (smem acc (s_name m) = true) as M by (unfold dmem; now rewrite HG). rewrite M, andb_false_r in HE.
      rewrite (get_mux_number_local _ _ _ _ HG) in HE. destruct (HM m v (HIN m Hm) Emux Hv) as [z Hz]. rewrite Hz in HE. cbn [bind] in HE.
      destruct (zget bs z) as [c'|] eqn:EZ; [|cbn [bind] in HE; congruence].
      assert (HC : In (z, c') bs) by now apply (get_in _ zspec) in EZ.
      destruct (decode_node all n c' data dc sc at_ ae) as [sub|e'] eqn:ES; cbn [bind] in HE.
      + destruct (decode_node_spec all n data dc sc at_ ae pd _ _ c' Hn U (SUB _ _ _ _ HIM HC) (CSUB _ _ _ _ HIM HC) HB HFD) as [S1 _].
        destruct (S1 sub ES) as (R1 & _). fold nb in R1.
        apply (IHm (fun x H => HI x (or_intror H)) (fun s => P s \/ In s (sel_list mv c')) (supdate acc sub)); auto.
        * intros k. apply name_in_or; [apply DP|apply name_in_list_dec].
        * apply restricts_union; auto. intros k; apply name_in_list_dec.
      + injection HE as <-. apply (IH _ _ _ _ HIM HC); [eauto|exact ES].
    - assert (smem acc (s_name m) = false) as M by (unfold dmem; now rewrite HG). rewrite M in HE.
      destruct at_ eqn:Eat; [|rewrite (FULL eq_refl m Hm) in Ew; discriminate]. cbn [andb negb bind] in HE.
      apply (IHm (fun x H => HI x (or_intror H)) P acc); auto. }
  apply (GEN muxes (fun x H => H) (fun s => In s here) own); auto. intros k. apply name_in_list_dec.
Qed.
