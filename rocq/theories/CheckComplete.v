(** CheckComplete: the strict layout check accepts every layout in which, for every choice of
    multiplexer values, the selected signals fit and are disjoint. *)
From Coq Require Import Sorting.Permutation Sorting.Sorted.
From Verif Require Import Base PyNum Conversion Signal Bitstruct Formats Message LayoutSpec
     DictLemmas BitsLemmas GenItems NodeProofs CheckSignal TreeProofs MsgProofs.
Ltac Zify.zify_post_hook ::= Z.div_mod_to_equations.

(** Number of multiplexers above a position. *)
Inductive depth (all : list signal) : option string -> nat -> Prop :=
| depth_root : depth all None 0
| depth_step y k : In y all -> depth all (s_mux_sig y) k -> depth all (Some (s_name y)) (S k).

Lemma depth_det all p k k' : names_unique all -> depth all p k -> depth all p k' -> k = k'.
Proof.
  intros U D. revert k'. induction D as [|y k Hy D IH]; intros k' D'; inversion D' as [|y' k2 Hy' D2 E]; subst; auto.
  assert (y' = y) by (apply (NoDup_map_inj s_name all); auto). subst. f_equal. auto.
Qed.

Inductive below (all : list signal) (q : string) : signal -> Prop :=
| below_one s : In s all -> s_mux_sig s = Some q -> below all q s
| below_step y s : below all q y -> In s all -> s_mux_sig s = Some (s_name y) -> below all q s.

Lemma below_in all q s : below all q s -> In s all.
Proof. now destruct 1. Qed.

Lemma below_depth all q s k : names_unique all -> below all q s -> depth all (Some q) k ->
  exists k', depth all (Some (s_name s)) k' /\ (k < k')%nat.
Proof.
  intros U B. induction B as [s Hs E|y s B IH Hs E]; intros D.
  - exists (S k). split; [|lia]. constructor; [assumption|]. now rewrite E.
  - destruct (IH D) as (k' & D' & L). exists (S k'). split; [|lia]. constructor; [assumption|]. now rewrite E.
Qed.

Lemma below_disjoint all p k m1 m2 s :
  names_unique all -> depth all p k -> In m1 all -> In m2 all ->
  s_mux_sig m1 = p -> s_mux_sig m2 = p -> m1 <> m2 ->
  (m1 = s \/ below all (s_name m1) s) -> (m2 = s \/ below all (s_name m2) s) -> False.
Proof.
  intros U D H1 H2 E1 E2 N.
  assert (D1 : depth all (Some (s_name m1)) (S k)) by (constructor; [|rewrite E1]; assumption).
  assert (D2 : depth all (Some (s_name m2)) (S k)) by (constructor; [|rewrite E2]; assumption).
  assert (X12 : ~ below all (s_name m1) m2).
  { intros B. destruct (below_depth _ _ _ _ U B D1) as (k' & D' & L). assert (k' = S k) by (eapply depth_det; eauto). lia. }
  assert (X21 : ~ below all (s_name m2) m1).
  { intros B. destruct (below_depth _ _ _ _ U B D2) as (k' & D' & L). assert (k' = S k) by (eapply depth_det; eauto). lia. }
  assert (UN : forall x y, In x all -> In y all -> s_name x = s_name y -> x = y).
  { intros x y. apply (NoDup_map_inj s_name all). exact U. }
  intros [<-|B1] [<-|B2]; try congruence; try contradiction.
  revert B2. induction B1 as [s Hs E|y s B IH Hs E]; intros B2; inversion B2 as [s' Hs' E'|y' s' B' Hs' E']; subst.
  - apply N. apply UN; auto. congruence.
  - assert (y' = m1). { apply UN; auto; [now apply below_in in B'|congruence]. } subst. contradiction.
  - assert (y = m2). { apply UN; auto; [now apply below_in in B|congruence]. } subst. contradiction.
  - assert (y = y'). { apply UN; [now apply below_in in B|now apply below_in in B'|congruence]. } subst. auto.
Qed.

Lemma sel_below all n mv q i c s :
  names_unique all -> wfc all n (Some q) (Some i) c -> In s (sel_list mv c) -> below all q s.
Proof.
  intros U W HI. apply (sel_list_desc _ _ _ _ _ _ U W) in HI.
  assert (G : forall p mid s, desc all mv p mid s ->
     (forall t, In t all -> s_mux_sig t = p -> below all q t) -> below all q s).
  { induction 1 as [p mid s' Hs HB|p mid m v s' Hm HB Em Ev D IH]; intros H.
    - apply belongs_iff in HB. apply H; tauto.
    - apply IH. intros t Ht Et. apply below_step with m; auto. apply belongs_iff in HB. apply H; tauto. }
  apply (G _ _ _ HI). intros t Ht Et. now apply below_one.
Qed.

Lemma sel_agree all n p mid c : names_unique all -> wfc all n p mid c ->
  forall mv mv', (forall s, In s (sel_list mv c) -> mv' (s_name s) = mv (s_name s)) ->
  sel_list mv' c = sel_list mv c.
Proof.
  intros U W. induction W as [p mid fm muxes HF ND SH CO SUB IH]. intros mv mv' H.
  rewrite !sel_list_eq. rewrite sel_list_eq in H. revert H.
  generalize (filter (belongs p mid) all) as l. induction l as [|s l IHl]; intros H; [reflexivity|].
  cbn [flat_map]. rewrite IHl.
  - f_equal. f_equal. unfold sel_sub. destruct (sget muxes (s_name s)) as [bs|] eqn:EG; [|reflexivity].
    assert (EM : mv' (s_name s) = mv (s_name s)). { apply H. now left. }
    rewrite EM. destruct (mv (s_name s)) as [v|] eqn:EV; [|reflexivity].
    destruct (zget bs v) as [c'|] eqn:EZ; [|reflexivity].
    assert (EG' := EG). assert (EZ' := EZ). apply (get_in _ sspec) in EG'. apply (get_in _ zspec) in EZ'.
    eapply IH; eauto. intros t Ht. apply H. cbn [flat_map]. apply in_or_app. left. right.
    unfold sel_sub. now rewrite EG, EV, EZ.
  - intros t Ht. apply H. cbn [flat_map]. apply in_or_app. now right.
Qed.

Lemma strmem_iff x l : strmem x l = true <-> In x l.
Proof.
  unfold strmem. rewrite existsb_exists. split.
  - intros (y & Hy & E). apply String.eqb_eq in E. now subst.
  - intros H. exists x. split; [assumption|]. apply String.eqb_refl.
Qed.

Lemma net_range_iff b n : 0 <= b < 8 * n <-> 0 <= net b < 8 * n.
Proof. apply net_range. Qed.

(** Two signals selected under different signals of a node are selected together by some valuation. *)
Lemma merge_valuations all n p k mid here fm muxes m1 m2 mv1 mv2 u t :
  names_unique all -> wfc all n p mid (Codec here fm muxes) -> depth all p k ->
  In m1 here -> In m2 here -> m1 <> m2 ->
  In u (m1 :: sel_sub mv1 muxes m1) -> In t (m2 :: sel_sub mv2 muxes m2) ->
  exists mv, In u (sel_list mv (Codec here fm muxes)) /\ In t (sel_list mv (Codec here fm muxes)).
Proof.
  intros U W D H1 H2 N Hu Ht. inversion W as [? ? ? ? HF ND SH CO SUB]; subst.
  apply filter_In in H1 as F1. apply filter_In in H2 as F2. destruct F1 as [A1 B1], F2 as [A2 B2].
  apply belongs_iff in B1, B2. destruct B1 as [P1 _], B2 as [P2 _].
  set (names1 := s_name m1 :: map s_name (sel_sub mv1 muxes m1)).
  set (mv := fun nm => if strmem nm names1 then mv1 nm else mv2 nm).
  assert (SUBB : forall m mv0 s, In m (filter (belongs p mid) all) -> In s (sel_sub mv0 muxes m) -> below all (s_name m) s).
  { intros m mv0 s Hm HI. unfold sel_sub in HI.
    destruct (sget muxes (s_name m)) as [bs|] eqn:EG; [|contradiction].
    destruct (mv0 (s_name m)) as [v|]; [|contradiction].
    destruct (zget bs v) as [c'|] eqn:EZ; [|contradiction].
    apply (get_in _ sspec) in EG. apply (get_in _ zspec) in EZ.
    eapply sel_below; eauto. }
  assert (DJ : forall a b, In a (m1 :: sel_sub mv1 muxes m1) -> In b (m2 :: sel_sub mv2 muxes m2) -> s_name a <> s_name b).
  { intros a b Ha Hb E.
    assert (In a all). { destruct Ha as [<-|Ha]; [assumption|]. apply (below_in _ (s_name m1)), (SUBB m1 mv1); assumption. }
    assert (In b all). { destruct Hb as [<-|Hb]; [assumption|]. apply (below_in _ (s_name m2)), (SUBB m2 mv2); assumption. }
    assert (a = b) by (apply (NoDup_map_inj s_name all); auto). subst b.
    eapply (below_disjoint all p k m1 m2 a); eauto.
    - destruct Ha as [|Ha]; [auto|]. right. apply (SUBB m1 mv1); assumption.
    - destruct Hb as [|Hb]; [auto|]. right. apply (SUBB m2 mv2); assumption. }
  assert (MV1 : forall s, In s (m1 :: sel_sub mv1 muxes m1) -> mv (s_name s) = mv1 (s_name s)).
  { intros s Hs. unfold mv. assert (strmem (s_name s) names1 = true) as ->; [|reflexivity].
    apply strmem_iff. unfold names1. destruct Hs as [<-|Hs]; [now left|right; now apply in_map]. }
  assert (MV2 : forall s, In s (m2 :: sel_sub mv2 muxes m2) -> mv (s_name s) = mv2 (s_name s)).
  { intros s Hs. unfold mv. destruct (strmem (s_name s) names1) eqn:E; [|reflexivity].
    apply strmem_iff in E. exfalso. unfold names1 in E.
    change (s_name m1 :: map s_name (sel_sub mv1 muxes m1)) with (map s_name (m1 :: sel_sub mv1 muxes m1)) in E.
    apply in_map_iff in E. destruct E as (a & Ea & Ha). eapply DJ; eauto. }
  assert (SS : forall m mv0, In m (filter (belongs p mid) all) -> (forall s, In s (m :: sel_sub mv0 muxes m) -> mv (s_name s) = mv0 (s_name s)) ->
     sel_sub mv muxes m = sel_sub mv0 muxes m).
  { intros m mv0 Hm HA. unfold sel_sub. destruct (sget muxes (s_name m)) as [bs|] eqn:EG; [|reflexivity].
    rewrite (HA m) by now left. destruct (mv0 (s_name m)) as [v|] eqn:EV; [|reflexivity].
    destruct (zget bs v) as [c'|] eqn:EZ; [|reflexivity].
    assert (EG' := EG). assert (EZ' := EZ). apply (get_in _ sspec) in EG'. apply (get_in _ zspec) in EZ'.
    eapply sel_agree; eauto. intros s Hs. apply HA. right. unfold sel_sub. now rewrite EG, EV, EZ. }
  exists mv. rewrite sel_list_eq. split; apply in_flat_map.
  - exists m1. split; [assumption|]. now rewrite (SS m1 mv1).
  - exists m2. split; [assumption|]. now rewrite (SS m2 mv2).
Qed.

Lemma check_codec_complete all n p mid c :
  0 <= n -> names_unique all -> (forall s, In s all -> 0 < s_length s) ->
  (forall s, In s all -> 0 <= s_start s) ->
  wfc all n p mid c ->
  forall k bits, depth all p k -> zlen bits = 8 * n ->
    (forall mv s, In s (sel_list mv c) -> sig_fits n s) ->
    (forall mv s b, In s (sel_list mv c) -> occupies s b -> occ bits (net b) = false) ->
    (forall mv s t, In s (sel_list mv c) -> In t (sel_list mv c) -> s <> t -> sig_disjoint s t) ->
    exists bits', check_codec all c bits = Ok bits' /\ zlen bits' = 8 * n /\
      forall j, 0 <= j < 8 * n -> occ bits' j = true ->
                occ bits j = true \/ exists mv s, In s (sel_list mv c) /\ occupies s (net j).
Proof.
  intros Hn U LP SP W. induction W as [p mid fm muxes HF ND SH CO SUB IH].
  assert (W' : wfc all n p mid (Codec (filter (belongs p mid) all) fm muxes)) by (constructor; auto).
  intros k bits D HL FIT FREE DISJ. unfold check_codec. rewrite signal_tree_eq, check_tree_eq.
  set (here := filter (belongs p mid) all) in *.
  assert (HIN : forall s, In s here -> In s all) by (intros s Hs; apply filter_In in Hs; tauto).
  assert (PAR : forall s, In s here -> s_mux_sig s = p).
  { intros s Hs. apply filter_In in Hs. destruct Hs as [_ HB]. apply belongs_iff in HB. tauto. }
  set (item := fun s => (s_name s, option_map (map (fun ic => (fst ic, create_signal_tree (snd ic)))) (sget muxes (s_name s)))).
  set (touch := fun l j => exists s mv t, In s l /\ In t (s :: sel_sub mv muxes s) /\ occupies t (net j)).
  assert (LOOP : forall suf pre cur, here = pre ++ suf -> zlen cur = 8 * n ->
     (forall j, 0 <= j < 8 * n -> occ cur j = true -> occ bits j = true \/ touch pre j) ->
     exists bits', foldM (check_item all) (map item suf) cur = Ok bits' /\ zlen bits' = 8 * n /\
       forall j, 0 <= j < 8 * n -> occ bits' j = true -> occ bits j = true \/ touch here j).
  { induction suf as [|s suf IHs]; intros pre cur Eh LC TC; cbn [map foldM].
    { exists cur. rewrite app_nil_r in Eh. subst pre. auto. }
    assert (Hs : In s here) by (rewrite Eh; apply in_or_app; right; now left).
    assert (NPRE : forall x, In x pre -> In x here /\ x <> s).
    { intros x Hx. split; [rewrite Eh; apply in_or_app; now left|]. intros ->.
      assert (NDH : NoDup (map s_name here)) by (apply NoDup_filter_map; exact U).
      rewrite Eh, map_app in NDH. cbn in NDH. apply NoDup_remove_2 in NDH. apply NDH, in_or_app. left. now apply in_map. }
    unfold check_item at 1. unfold item at 1 2. cbn [fst snd].
    rewrite get_signal_in by auto. cbn [bind].
    (* anything under [s] is free of what is marked so far *)
    assert (FREECUR : forall mv u b, In u (s :: sel_sub mv muxes s) -> 0 <= b < 8 * n -> occupies u b -> occ cur (net b) = false).
    { intros mv u b Hu Hb Ob. destruct (occ cur (net b)) eqn:E; [|reflexivity].
      destruct (TC (net b)) as [T|(x & mv2 & t & Hx & Ht & Ot)]; [now apply -> net_range_iff|assumption| |].
      - rewrite (FREE mv u b) in T; [discriminate| |assumption].
        rewrite sel_list_eq. apply in_flat_map. eauto.
      - rewrite net_invol in Ot. destruct (NPRE x Hx) as [Hxh Nx].
        destruct (merge_valuations all n p k mid here fm muxes s x mv mv2 u t) as (mv' & I1 & I2); auto.
        exfalso. apply (DISJ mv' u t I1 I2) with b; auto.
        intros ->. (* same signal under two different signals *)
        assert (SB : forall m mv0 t', In m here -> In t' (m :: sel_sub mv0 muxes m) -> m = t' \/ below all (s_name m) t').
        { intros m mv0 t' Hm [->|HI]; [auto|]. right. unfold sel_sub in HI.
          destruct (sget muxes (s_name m)) as [bs|] eqn:EG; [|contradiction].
          destruct (mv0 (s_name m)) as [v|]; [|contradiction].
          destruct (zget bs v) as [c'|] eqn:EZ; [|contradiction].
          apply (get_in _ sspec) in EG. apply (get_in _ zspec) in EZ. eapply sel_below; eauto. }
        eapply (below_disjoint all p k s x t); eauto. }
    assert (SELIN : forall mv u, In u (s :: sel_sub mv muxes s) -> In u (sel_list mv (Codec here fm muxes))).
    { intros mv u Hu. rewrite sel_list_eq. apply in_flat_map. eauto. }
    assert (HsF : sig_fits n s) by (apply (FIT (fun _ => None)); apply SELIN; now left).
    destruct (check_signal_spec n cur s Hn LC (LP _ (HIN _ Hs)) (SP _ (HIN _ Hs))) as [CS1 CS2].
    destruct (proj2 CS1) as [b1 Hb1].
    { split; [assumption|]. intros b Ob. apply (FREECUR (fun _ => None) s b); [now left|now apply HsF|assumption]. }
    rewrite Hb1. cbn [bind]. destruct (CS2 _ Hb1) as [L1 O1].
    assert (KIDS : exists b2, match option_map (map (fun ic => (fst ic, create_signal_tree (snd ic)))) (sget muxes (s_name s)) with
          | None => Ok b1
          | Some cs => foldM (fun acc c => let* cb := check_tree all (snd c) b1 in Ok (merge_bits acc cb)) cs b1
          end = Ok b2 /\ zlen b2 = 8 * n /\
          forall j, 0 <= j < 8 * n -> occ b2 j = true -> occ b1 j = true \/ touch [s] j).
    { destruct (sget muxes (s_name s)) as [bs|] eqn:EG; cbn [option_map]; [|exists b1; auto].
      assert (HBS := EG). apply (get_in _ sspec) in HBS.
      assert (NDI : NoDup (map fst bs)).
      { destruct (SH _ _ HBS) as (m & _ & _ & _ & -> & _). apply children_ids_spec. }
      assert (KL : forall cs acc, (forall i c, In (i, c) cs -> In (i, c) bs) -> zlen acc = 8 * n ->
        (forall j, 0 <= j < 8 * n -> occ acc j = true -> occ b1 j = true \/ touch [s] j) ->
        exists r, foldM (fun acc c => let* cb := check_tree all (snd c) b1 in Ok (merge_bits acc cb))
          (map (fun ic => (fst ic, create_signal_tree (snd ic))) cs) acc = Ok r /\ zlen r = 8 * n /\
          forall j, 0 <= j < 8 * n -> occ r j = true -> occ b1 j = true \/ touch [s] j).
      { induction cs as [|[i c] cs IHc]; intros acc HCS LA TA; cbn [map foldM]; [eauto|]. cbn [fst snd].
        assert (HC := HCS _ _ (or_introl eq_refl)).
        assert (EZ : zget bs i = Some c) by now apply (in_get _ zspec).
        assert (LIFT : forall mv u, In u (sel_list mv c) ->
                   exists mv', In u (sel_sub mv' muxes s) /\ forall t, In t (sel_list mv c) -> In t (sel_sub mv' muxes s)).
        { intros mv u Hu. exists (fun nm => if String.eqb nm (s_name s) then Some i else mv nm).
          set (mv' := fun nm => if String.eqb nm (s_name s) then Some i else mv nm).
          assert (EQ : sel_list mv' c = sel_list mv c).
          { eapply sel_agree; [exact U|eapply SUB; eauto|]. intros t Ht. unfold mv'.
            destruct (String.eqb_spec (s_name t) (s_name s)) as [E|]; [|reflexivity]. exfalso.
            assert (B := sel_below _ _ _ _ _ _ _ U (SUB _ _ _ _ HBS HC) Ht).
            assert (DS : depth all (Some (s_name s)) (S k)) by (constructor; [auto|]; now rewrite PAR).
            destruct (below_depth _ _ _ _ U B DS) as (k' & D' & LT). rewrite E in D'.
            assert (k' = S k) by (eapply depth_det; eauto). lia. }
          unfold sel_sub. rewrite EG. unfold mv' at 1 3. rewrite String.eqb_refl, EZ, EQ. auto. }
        destruct (IH _ _ i c HBS HC (S k) b1) as (cb & HCB & LCB & TCB).
        - constructor; [auto|]. now rewrite PAR.
        - assumption.
        - intros mv u Hu. destruct (LIFT mv u Hu) as (mv' & I & _). apply (FIT mv'), SELIN. now right.
        - intros mv u b Hu Ob. destruct (LIFT mv u Hu) as (mv' & I & _).
          assert (FU : sig_fits n u) by (apply (FIT mv'), SELIN; now right).
          assert (RB : 0 <= b < 8 * n) by now apply FU.
          rewrite O1 by now apply -> net_range_iff. rewrite net_invol.
          rewrite (FREECUR mv' u b) by (auto; now right). rewrite orb_false_r.
          destruct (occb s b) eqn:EO; [|reflexivity]. apply occb_iff in EO. exfalso.
          apply (DISJ mv' s u) with b; auto.
          + apply SELIN. now left.
          + apply SELIN. now right.
          + intros <-. assert (B := sel_below _ _ _ _ _ _ _ U (SUB _ _ _ _ HBS HC) Hu).
            assert (DS : depth all (Some (s_name s)) (S k)) by (constructor; [auto|]; now rewrite PAR).
            destruct (below_depth _ _ _ _ U B DS) as (k' & D' & LT).
            assert (k' = S k) by (eapply depth_det; eauto). lia.
        - intros mv u t Hu Ht Nut. destruct (LIFT mv u Hu) as (mv' & I & I2).
          apply (DISJ mv' u t); auto; apply SELIN; right; auto.
        - unfold check_codec in HCB. rewrite HCB. cbn [bind].
          destruct (merge_occ acc cb n LA LCB) as [LM OM].
          apply IHc; [intros; apply HCS; now right|assumption|].
          intros j Hj. rewrite OM, orb_true_iff. intros [T|T]; [auto|].
          destruct (TCB j Hj T) as [|(mv & u & Hu & Ou)]; [auto|]. right.
          destruct (LIFT mv u Hu) as (mv' & I & _). exists s, mv', u. cbn. auto. }
      apply (KL bs b1); auto. }
    destruct KIDS as (b2 & -> & L2 & T2). cbn [bind].
    destruct (IHs (pre ++ [s]) b2) as (bits' & HB & LB & TB).
    - rewrite <- app_assoc. exact Eh.
    - assumption.
    - intros j Hj T. destruct (T2 j Hj T) as [T1|(x & mv & t & [<-|[]] & Ht & Ot)].
      + rewrite O1 in T1 by assumption. apply orb_true_iff in T1. destruct T1 as [T1|T1].
        * right. exists s, (fun _ => None), s. split; [apply in_or_app; right; now left|].
          split; [now left|]. now apply occb_iff.
        * destruct (TC j Hj T1) as [|(x & mv & t & Hx & Ht & Ot)]; [auto|]. right.
          exists x, mv, t. split; [apply in_or_app; now left|auto].
      + right. exists s, mv, t. split; [apply in_or_app; right; now left|auto].
    - exists bits'. auto. }
  destruct (LOOP here [] bits eq_refl HL) as (bits' & HB & LB & TB); [auto|].
  exists bits'. split; [exact HB|]. split; [assumption|].
  intros j Hj T. destruct (TB j Hj T) as [|(s & mv & t & Hs & Ht & Ot)]; [auto|]. right.
  exists mv, t. split; [|assumption]. rewrite sel_list_eq. apply in_flat_map. eauto.
Qed.
