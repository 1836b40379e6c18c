(** Prop_Initial: property C53, the values a tester starts with. *)
From Coq Require Import Floats.SpecFloat.
From Verif Require Import Base PyNum Conversion Signal Formats Message LayoutSpec DictLemmas NodeProofs TreeProofs
     CodecSpec Construct CodecThms Container Database Tester Examples Prop_Codec Prop_Invert.
Open Scope Z_scope.
Open Scope list_scope.

(** ** Specification *)

(** Some signal without branches lies below the multiplexer [m]. *)
Inductive leaf_below (all : list signal) : signal -> Prop :=
| leaf_child m c ids i : In c all -> s_mux_sig c = Some (s_name m) -> s_mux_ids c = Some ids -> In i ids ->
    (s_is_mux c = false \/ forall j, ~ known_id all c j) -> leaf_below all m
| leaf_deeper m c ids i : In c all -> s_mux_sig c = Some (s_name m) -> s_mux_ids c = Some ids -> In i ids ->
    s_is_mux c = true -> leaf_below all c -> leaf_below all m.

(** The limits of a signal allow the number [x]. *)
Definition allows (s : signal) (x : num) : Prop :=
  (forall lo, s_min s = Some lo -> py_le lo x = true) /\ (forall hi, s_max s = Some hi -> py_le x hi = true).
(** The limits are numbers in the right order; a maximum alone is not negative. *)
Definition sane_limits (s : signal) : Prop :=
  match s_min s, s_max s with
  | None, None => True
  | Some lo, None => py_le lo lo = true
  | None, Some hi => py_le (NInt 0) hi = true
  | Some lo, Some hi => py_le lo hi = true
  end.
(** The configured initial value of a signal, if it counts (Python: if it is true). *)
Definition configured (c : tconf) (s : signal) : option value :=
  match sget (tc_initial c) (s_name s) with Some v => if truthy v then Some v else None | None => None end.

(** ** Comparisons *)
Lemma eq0 x : py_eq x (NInt 0) = true -> py_le x (NInt 0) = true /\ py_le (NInt 0) x = true.
Proof.
  unfold py_eq, py_le. destruct x as [z|[s|s| |s m e]]; cbn [py_compare cmp_Z_float option_map].
  - destruct (z ?= 0) eqn:E; try discriminate. apply Z.compare_eq in E. subst z. auto.
  - auto.
  - destruct s; discriminate.
  - discriminate.
  - match goal with |- context [if 0 <=? e then ?a else ?b] => destruct (if 0 <=? e then a else b) end; cbn; auto; discriminate.
Qed.
Lemma eq0_le x y : py_eq x (NInt 0) = true -> py_le x y = true -> py_le (NInt 0) y = true.
Proof.
  unfold py_eq, py_le. destruct x as [z|[s|s| |s m e]]; cbn [py_compare cmp_Z_float option_map].
  - destruct (z ?= 0) eqn:E; try discriminate. apply Z.compare_eq in E. subst z. auto.
  - intros _. destruct y as [z|[t|t| |t m' e']]; cbn [py_compare cmp_Z_float option_map SFcompare]; try discriminate; auto.
    + rewrite Z.compare_antisym. rewrite CompOpp_involutive. auto.
    + destruct t; [discriminate|]. intros _. cbn [signed_Z].
      destruct (Z.leb_spec 0 e').
      * assert (P : 0 < Z.pos m' * 2 ^ e') by (apply Z.mul_pos_pos; [lia|apply Z.pow_pos_nonneg; lia]).
        apply Z.compare_lt_iff in P. now rewrite P.
      * assert (P : 0 * 2 ^ (- e') < Z.pos m') by lia. apply Z.compare_lt_iff in P. now rewrite P.
  - destruct s; discriminate.
  - discriminate.
  - destruct (Z.leb_spec 0 e) as [E|E].
    + destruct (0 ?= _) eqn:Q; try discriminate. apply Z.compare_eq in Q. exfalso.
      assert (P : 0 < Z.pos m * 2 ^ e) by (apply Z.mul_pos_pos; [lia|apply Z.pow_pos_nonneg; lia]).
      destruct s; cbn [signed_Z] in Q; lia.
    + destruct (0 * 2 ^ (- e) ?= _) eqn:Q; try discriminate. apply Z.compare_eq in Q. exfalso.
      destruct s; cbn [signed_Z] in Q; lia.
Qed.
Lemma le_refl_of x y : py_le x y = true -> py_le x x = true.
Proof.
  unfold py_le. destruct x as [z|[s|s| |s m e]]; cbn; intros H.
  - now rewrite Z.compare_refl.
  - reflexivity.
  - now destruct s.
  - destruct y; discriminate.
  - rewrite Z.compare_refl. unfold Pos.compare. destruct s; now rewrite ?(Pos.compare_cont_refl).
Qed.

Lemma range_allows c mpx s : sane_limits s -> s_is_mux s = false -> configured c s = None ->
  exists x, initial_value c mpx s = VNum x /\ allows s x.
Proof.
  intros SL M C. unfold initial_value. rewrite M. unfold configured in C.
  set (fb := if py_le (or_zero (s_min s)) (NInt 0) && py_le (NInt 0) (or_zero (s_max s)) then VNum (NInt 0) else VNum (or_zero (s_min s))).
  assert (E : match sget (tc_initial c) (s_name s) with Some v => if truthy v then v else fb | None => fb end = fb).
  { destruct (sget (tc_initial c) (s_name s)) as [v|]; [|reflexivity]. now destruct (truthy v). }
  cbv zeta. fold fb. rewrite E. clear E C M. subst fb. unfold sane_limits in SL. unfold allows.
  assert (LO : forall lo, s_min s = Some lo -> py_le (or_zero (s_min s)) (NInt 0) = true -> py_le lo (NInt 0) = true).
  { intros lo E. rewrite E. cbn. destruct (py_eq lo (NInt 0)) eqn:Q; [|auto]. intros _. now apply eq0. }
  assert (HI : forall hi, s_max s = Some hi -> py_le (NInt 0) (or_zero (s_max s)) = true -> py_le (NInt 0) hi = true).
  { intros hi E. rewrite E. cbn. destruct (py_eq hi (NInt 0)) eqn:Q; [|auto]. intros _. now apply eq0. }
  destruct (py_le (or_zero (s_min s)) (NInt 0)) eqn:Q1; destruct (py_le (NInt 0) (or_zero (s_max s))) eqn:Q2; cbn [andb].
  - exists (NInt 0). split; [reflexivity|]. split; [intros lo E; now apply LO|intros hi E; now apply HI].
  - (* 0 is above the maximum *)
    destruct (s_max s) as [hi|] eqn:EH; [|cbn in Q2; discriminate].
    assert (N : py_le (NInt 0) hi = false).
    { cbn [or_zero] in Q2. destruct (py_eq hi (NInt 0)) eqn:Z0; [cbn in Q2; discriminate|exact Q2]. }
    destruct (s_min s) as [lo|] eqn:EL; [|congruence]. cbn [or_zero] in *.
    destruct (py_eq lo (NInt 0)) eqn:Z0; [rewrite (eq0_le lo hi Z0 SL) in N; discriminate|].
    exists lo. split; [reflexivity|]. split; [intros x [= <-]; eapply le_refl_of; eauto|intros x [= <-]; exact SL].
  - destruct (s_min s) as [lo|] eqn:EL; [|cbn in Q1; discriminate]. cbn [or_zero] in *.
    destruct (py_eq lo (NInt 0)) eqn:Z0; [cbn in Q1; discriminate|].
    exists lo. split; [reflexivity|]. split; [intros x [= <-]|intros hi E; rewrite E in SL; exact SL].
    destruct (s_max s); [eapply le_refl_of; eauto|exact SL].
  - destruct (s_min s) as [lo|] eqn:EL; [|cbn in Q1; discriminate]. cbn [or_zero] in *.
    destruct (py_eq lo (NInt 0)) eqn:Z0; [cbn in Q1; discriminate|].
    exists lo. split; [reflexivity|]. split; [intros x [= <-]|intros hi E; rewrite E in SL; exact SL].
    destruct (s_max s); [eapply le_refl_of; eauto|exact SL].
Qed.

(** ** The multiplexer settings *)
Lemma settings_get (l : list settings) : (forall w, In w l -> NoDup (map fst w)) -> forall acc k,
  (forall v, sget (fold_left (fun a m => supdate a m) l acc) k = Some v -> sget acc k = Some v \/ exists w, In w l /\ In (k, v) w) /\
  (In k (map fst acc) \/ (exists w, In w l /\ In k (map fst w)) -> In k (map fst (fold_left (fun a m => supdate a m) l acc))).
Proof.
  induction l as [|w l IH]; intros ND acc k; cbn [fold_left].
  - split; [auto|]. intros [H|(w & [] & _)]; exact H.
  - destruct (IH (fun x H => ND x (or_intror H)) (supdate acc w) k) as [I1 I2]. split.
    + intros v G. destruct (I1 v G) as [H|(x & H1 & H2)]; [|right; exists x; split; [now right|exact H2]].
      rewrite (get_upd _ sspec) in H by (apply ND; now left).
      destruct (sget w k) as [y|] eqn:E; [|now left]. injection H as ->. right. exists w. split; [now left|]. now apply (get_in _ sspec).
    + intros H. apply I2. rewrite (upd_keys_in _ sspec). destruct H as [H|(x & [<-|H1] & H2)]; [auto|auto|right; eauto].
Qed.

Lemma invert_keys t : NoDup (map fst (invert_signal_tree t)).
Proof.
  unfold invert_signal_tree. rewrite invert_ways. assert (G : forall l ret, NoDup (map fst ret) -> NoDup (map fst (fold_left (add_way []) l ret))).
  { induction l as [|w l IH]; intros ret H; [exact H|]. cbn [fold_left]. apply IH. unfold add_way, inv_add. now apply (set_nodup _ sspec). }
  apply G. constructor.
Qed.

Lemma mplex_concat inv : mplex_settings inv = fold_left (fun a m => supdate a m) (List.concat (rev (map snd inv))) [].
Proof.
  unfold mplex_settings. generalize (rev (map snd inv)) (@nil (string * Z)). intros l. induction l as [|x l IH]; intros acc; [reflexivity|].
  cbn [fold_left List.concat]. rewrite IH, fold_left_app. reflexivity.
Qed.

Section Tree.
  Variables (all : list signal) (n : Z).
  Context (U : names_unique all).

  Lemma leads_known p mid c : wfc all n p mid c -> forall w x, leads (create_signal_tree c) w x ->
    forall k v, In (k, v) w -> exists s, In s all /\ s_name s = k /\ In v (children_ids all s).
  Proof.
    intros W. induction W as [p mid fm muxes HF ND SH CO SUB IH]. intros w x L. rewrite signal_tree_eq in L.
    inversion L as [ns y HI|ns m cs i t w' y HI HJ HL]; subst; [intros k v []|].
    apply in_map_iff in HI. destruct HI as (s & [= E1 E2] & HI). apply filter_In in HI. destruct HI as [HI HB].
    destruct (sget muxes (s_name s)) as [bs|] eqn:G; [|discriminate]. cbn in E2. injection E2 as <-.
    apply in_map_iff in HJ. destruct HJ as ([j c] & [= <- <-] & HJ). cbn [fst snd] in *.
    pose proof (get_in _ sspec _ _ _ G) as HIM. subst m.
    intros k v [[= <- <-]|HK]; [|eapply IH; eauto].
    destruct (SH _ _ HIM) as (s0 & Hs0 & En & Em & K & _). apply filter_In in Hs0. destruct Hs0 as [Hs0 _].
    assert (s0 = s) by (apply (NoDup_map_inj s_name all); auto). subst s0.
    exists s. split; [exact HI|]. split; [reflexivity|]. rewrite <- K. apply in_map_iff. exists (j, c). auto.
  Qed.

  Lemma below_leads m : leaf_below all m -> forall p mid c, wfc all n p mid c -> In m all -> belongs p mid m = true ->
    s_is_mux m = true -> exists i w x, leads (create_signal_tree c) ((s_name m, i) :: w) x.
  Proof.
    assert (ST : forall m c ids i p mid cod, In m all -> belongs p mid m = true -> s_is_mux m = true -> wfc all n p mid cod ->
      In c all -> s_mux_sig c = Some (s_name m) -> s_mux_ids c = Some ids -> In i ids ->
      exists cod', wfc all n (Some (s_name m)) (Some i) cod' /\ belongs (Some (s_name m)) (Some i) c = true /\
        forall w x, leads (create_signal_tree cod') w x -> leads (create_signal_tree cod) ((s_name m, i) :: w) x).
    { clear m. intros m c ids i p mid cod Hm HB EM W Hc E1 E2 E3.
      inversion W as [p0 mid0 fm muxes HF ND SH CO SUB]; subst.
      assert (HmF : In m (filter (belongs p mid) all)) by now apply filter_In.
      assert (HV : In i (children_ids all m)) by (apply children_ids_spec; left; eauto 8).
      destruct (CO m HmF EM) as [bs Hbs]; [intros E; now rewrite E in HV|].
      destruct (SH _ _ Hbs) as (m' & Hm' & En & _ & K & _).
      assert (m' = m). { apply filter_In in HmF, Hm'. apply (NoDup_map_inj s_name all); tauto. } subst m'.
      rewrite <- K in HV. apply in_map_iff in HV. destruct HV as ([j c'] & E & HJ). cbn in E. subst j.
      exists c'. split; [eapply SUB; eauto|]. split; [apply belongs_iff; eauto|].
      intros w x L. rewrite signal_tree_eq. eapply leads_down with (t := create_signal_tree c').
      - apply in_map_iff. exists m. split; [|exact HmF]. f_equal. rewrite (in_get _ sspec _ _ _ ND Hbs). reflexivity.
      - apply in_map_iff. exists (i, c'). split; [reflexivity|exact HJ].
      - exact L. }
    intros LB. induction LB as [m c ids i Hc E1 E2 E3 LF|m c ids i Hc E1 E2 E3 EC LB IH]; intros p mid cod W Hm HB EM;
      destruct (ST m c ids i p mid cod Hm HB EM W Hc E1 E2 E3) as (cod' & W' & HB' & K).
    - exists i, [], (s_name c). apply K. inversion W' as [p0 mid0 fm muxes HF ND SH CO SUB]; subst.
      rewrite signal_tree_eq. apply leads_leaf. apply in_map_iff. exists c. split; [|now apply filter_In].
      destruct (sget muxes (s_name c)) as [bs|] eqn:G; [|reflexivity]. exfalso.
      apply (get_in _ sspec) in G. destruct (SH _ _ G) as (s0 & Hs0 & En & Em & _ & NE). apply filter_In in Hs0.
      assert (s0 = c) by (apply (NoDup_map_inj s_name all); tauto). subst s0.
      destruct LF as [E|E]; [congruence|]. destruct (children_ids all c) as [|j l] eqn:Q; [contradiction|].
      apply (E j). apply children_ids_spec. rewrite Q. now left.
    - destruct (IH _ _ _ W' Hc HB' EC) as (j & w & x & L). exists i, ((s_name c, j) :: w), x. now apply K.
  Qed.

  Lemma desc_below m mv : forall p mid c, wfc all n p mid c -> desc all mv p mid m -> s_is_mux m = true -> leaf_below all m ->
    exists w x, leads (create_signal_tree c) w x /\ In (s_name m) (map fst w).
  Proof.
    intros p mid c W D EM LB. revert c W. induction D as [p mid s HI HB|p mid m v s Hm HB Em Ev D IH]; intros c W.
    - destruct (below_leads s LB p mid c W HI HB EM) as (i & w & x & L). exists ((s_name s, i) :: w), x. split; [exact L|now left].
    - inversion W as [p0 mid0 fm muxes HF ND SH CO SUB]; subst.
      assert (HmF : In m (filter (belongs p mid) all)) by now apply filter_In.
      assert (HV : In v (children_ids all m)).
      { apply children_ids_spec. left.
        assert (exists t, In t all /\ belongs (Some (s_name m)) (Some v) t = true) as (t & Ht & HBt).
        { inversion D; subst; eauto. }
        apply belongs_iff in HBt. destruct HBt as (E1 & ids & E2 & E3). eauto 6. }
      destruct (CO m HmF Em) as [bs Hbs]; [intros E; now rewrite E in HV|].
      destruct (SH _ _ Hbs) as (m' & Hm' & En & _ & K & _).
      assert (m' = m). { apply filter_In in HmF, Hm'. apply (NoDup_map_inj s_name all); tauto. } subst m'.
      rewrite <- K in HV. apply in_map_iff in HV. destruct HV as ([j c'] & E & HJ). cbn in E. subst j.
      destruct (IH EM LB c') as (w & x & L & HIN); [eapply SUB; eauto|].
      exists ((s_name m, v) :: w), x. split; [|now right].
      rewrite signal_tree_eq. eapply leads_down with (t := create_signal_tree c').
      + apply in_map_iff. exists m. split; [|exact HmF]. f_equal. rewrite (in_get _ sspec _ _ _ ND Hbs). reflexivity.
      + apply in_map_iff. exists (v, c'). split; [reflexivity|exact HJ].
      + exact L.
  Qed.

  Lemma mplex_known c : wfc all n None None c ->
    let mpx := mplex_settings (invert_signal_tree (create_signal_tree c)) in
    (forall k v, sget mpx k = Some v -> exists s, In s all /\ s_name s = k /\ known_id all s v) /\
    (forall s mv, active all mv s -> s_is_mux s = true -> leaf_below all s -> exists v, sget mpx (s_name s) = Some v).
  Proof.
    intros W. set (t := create_signal_tree c).
    assert (ND : forall x w, In w (ways_to x t) -> NoDup (map fst w)).
    { intros x w HI. apply leads_ways in HI. destruct (leads_wfc _ _ _ _ _ U W _ _ HI) as [CH _]. eapply chain_nodup; eauto. }
    assert (IN : forall w, In w (List.concat (rev (map snd (invert_signal_tree t)))) <-> exists x, leads t w x).
    { intros w. rewrite in_concat. split.
      - intros (l & HL & HW). apply in_rev in HL. apply in_map_iff in HL. destruct HL as ([x l'] & E & HL). cbn in E. subst l'.
        apply (in_get _ sspec _ _ _ (invert_keys t)) in HL. rewrite C37_ways in HL by (intros; eapply ND; eauto).
        exists x. apply leads_ways. destruct (ways_to x t); [discriminate|]. now injection HL as <-.
      - intros (x & L). apply leads_ways in L.
        assert (G : sget (invert_signal_tree t) x = Some (ways_to x t)).
        { rewrite C37_ways by (intros; eapply ND; eauto). destruct (ways_to x t); [contradiction|reflexivity]. }
        exists (ways_to x t). split; [|exact L]. apply -> in_rev. apply in_map_iff. exists (x, ways_to x t). split; [reflexivity|].
        now apply (get_in _ sspec). }
    cbv zeta. rewrite mplex_concat.
    assert (ND' : forall w, In w (List.concat (rev (map snd (invert_signal_tree t)))) -> NoDup (map fst w)).
    { intros w HW. apply IN in HW. destruct HW as [x L]. apply leads_ways in L. eapply ND; eauto. }
    split.
    - intros k v G. destruct (settings_get _ ND' [] k) as [S1 _]. destruct (S1 v G) as [Q|(w & HW & HK)]; [discriminate|].
      apply IN in HW. destruct HW as [x L]. destruct (leads_known _ _ _ W _ _ L _ _ HK) as (s & H1 & H2 & H3).
      exists s. split; [exact H1|]. split; [exact H2|]. now apply children_ids_spec.
    - intros s mv A EM LB. rewrite <- desc_active in A. destruct (desc_below _ _ _ _ _ W A EM LB) as (w & x & L & HIN).
      apply (get_in_keys _ sspec). destruct (settings_get _ ND' [] (s_name s)) as [_ S2]. apply S2. right. exists w. split; [|exact HIN].
      apply IN. eauto.
  Qed.
End Tree.

(** ** The initial dictionary *)
Lemma initial_fold c mpx l : forall d, NoDup (map s_name l) ->
  (forall s, In s l -> ~ In (s_name s) (map fst d)) ->
  fold_left (fun d s => sset d (s_name s) (initial_value c mpx s)) l d =
  d ++ map (fun s => (s_name s, initial_value c mpx s)) l.
Proof.
  induction l as [|s l IH]; intros d ND HN; cbn [fold_left map]; [now rewrite app_nil_r|].
  inversion ND as [|? ? N1 N2]; subst. rewrite (set_new _ sspec) by (apply HN; now left).
  rewrite IH; [now rewrite <- app_assoc|exact N2|]. intros s' Hs'. rewrite map_app, in_app_iff. cbn. intros [H|[H|[]]].
  - revert H. apply HN. now right.
  - apply N1. rewrite H. now apply in_map.
Qed.

Section Statement.
  Variable c : tconf.
  Context (SM : strict_message (tc_msg c)).
  Let all := m_signals (tc_msg c).
  Let mpx := mplex_settings (invert_signal_tree (m_tree (tc_msg c))).

  Lemma initial_map : initial_values c = map (fun s => (s_name s, initial_value c mpx s)) all.
  Proof.
    destruct (strict_message_ok _ SM) as [OK _]. unfold initial_values. rewrite initial_fold; [reflexivity|exact (mo_names _ OK)|].
    intros s _ [].
  Qed.
  Lemma initial_get s : In s all -> sget (initial_values c) (s_name s) = Some (initial_value c mpx s).
  Proof.
    destruct (strict_message_ok _ SM) as [OK _]. intros HI. rewrite initial_map. apply (in_get _ sspec).
    - rewrite map_map. cbn. exact (mo_names _ OK).
    - apply in_map_iff. exists s. auto.
  Qed.

  Lemma initial_mux s mv : active all mv s -> s_is_mux s = true -> leaf_below all s -> configured c s = None ->
    exists i, initial_value c mpx s = VNum (NInt i) /\ known_id all s i.
  Proof.
    intros A EM LB C. destruct (strict_message_ok _ SM) as [OK _].
    destruct (mplex_known all (m_length (tc_msg c)) (mo_names _ OK) _ (mo_wfc _ OK)) as [K1 K2].
    rewrite <- (mo_tree _ OK) in K1, K2. fold mpx in K1, K2. destruct (K2 s mv A EM LB) as [i G]. exists i. split.
    - unfold initial_value. rewrite EM. unfold configured in C. cbv zeta. rewrite G.
      destruct (sget (tc_initial c) (s_name s)) as [v|]; [|reflexivity]. now destruct (truthy v).
    - destruct (K1 _ _ G) as (s' & H1 & H2 & H3).
      assert (s' = s). { apply (NoDup_map_inj s_name all); auto; [exact (mo_names _ OK)|]. now apply active_in in A. } now subst.
  Qed.
End Statement.

(** ** C53: what a tester message starts with.  Every signal has a value: the configured initial value if
    there is one, an allowed value for a signal with sane limits, a known id for a multiplexer that some
    other signal depends on. *)
Theorem C53_initial_values c :
  strict_message (tc_msg c) ->
  map fst (initial_values c) = map s_name (m_signals (tc_msg c)) /\
  (forall s, In s (m_signals (tc_msg c)) ->
     (forall v, configured c s = Some v -> sget (initial_values c) (s_name s) = Some v) /\
     (configured c s = None -> s_is_mux s = false -> sane_limits s ->
      exists x, sget (initial_values c) (s_name s) = Some (VNum x) /\ allows s x)) /\
  (forall s mv, active (m_signals (tc_msg c)) mv s -> s_is_mux s = true -> leaf_below (m_signals (tc_msg c)) s ->
     configured c s = None ->
     exists i, sget (initial_values c) (s_name s) = Some (VNum (NInt i)) /\ known_id (m_signals (tc_msg c)) s i).
Proof.
  intros SM. split; [|split].
  - rewrite (initial_map c SM), map_map. reflexivity.
  - intros s Hs. split.
    + intros v C. rewrite (initial_get c SM s Hs). f_equal. unfold configured in C. unfold initial_value. cbv zeta.
      destruct (sget (tc_initial c) (s_name s)) as [y|]; [|discriminate]. destruct (truthy y); [congruence|discriminate].
    + intros C M SL. rewrite (initial_get c SM s Hs).
      destruct (range_allows c (mplex_settings (invert_signal_tree (m_tree (tc_msg c)))) s SL M C) as (x & E & AL).
      exists x. rewrite E. auto.
  - intros s mv A M LB C. destruct (initial_mux c SM s mv A M LB C) as (i & E & K). exists i. split; [|exact K].
    rewrite (initial_get c SM s) by (now apply active_in in A). now rewrite E.
Qed.

(** The values select one consistent set of signals: gather_signals accepts them. *)
Theorem C53_gather c :
  strict_message (tc_msg c) ->
  (forall s, In s (m_signals (tc_msg c)) -> s_is_mux s = true -> (exists i, known_id (m_signals (tc_msg c)) s i) ->
     match configured c s with
     | None => leaf_below (m_signals (tc_msg c)) s
     | Some v => exists i, selector s v = Some i /\ known_id (m_signals (tc_msg c)) s i
     end) ->
  exists out, gather_signals (tc_msg c) (initial_values c) = Ok out.
Proof.
  intros SM H. apply C11_gather_iff; [exact SM|]. intros s A. unfold selected in A.
  assert (Hs : In s (m_signals (tc_msg c))) by (now apply active_in in A).
  pose proof (initial_get c SM s Hs) as G. split; [|eauto].
  intros EM KN. specialize (H s Hs EM KN). unfold selectors.
  destruct (strict_message_ok _ SM) as [OK _].
  assert (F : find_signal (m_signals (tc_msg c)) (s_name s) = Some s) by (apply find_signal_in; [exact (mo_names _ OK)|exact Hs]).
  rewrite F, G. destruct (configured c s) as [v|] eqn:C.
  - destruct H as (i & E & K). exists i. split; [|exact K].
    destruct (C53_initial_values c SM) as (_ & I & _). destruct (I s Hs) as [I1 _]. specialize (I1 v C). rewrite G in I1. injection I1 as ->. exact E.
  - destruct (initial_mux c SM s _ A EM H C) as (i & E & K). rewrite E. exists i. split; [reflexivity|exact K].
Qed.

(** ** Examples and refutations *)
Definition conf_init (m : message) (l : list (string * value)) : tconf :=
  mkTconf (mkEntry m true []) false true [] l true false true.

Example C53_hypotheses :
  let c := conf_init ex_msg [("Speed"%string, VNum (NInt 7))] in
  strict_message (tc_msg c) /\
  (forall s, In s (m_signals (tc_msg c)) -> s_is_mux s = true -> (exists i, known_id (m_signals (tc_msg c)) s i) ->
     match configured c s with
     | None => leaf_below (m_signals (tc_msg c)) s
     | Some v => exists i, selector s v = Some i /\ known_id (m_signals (tc_msg c)) s i
     end) /\
  sget (initial_values c) "Mux"%string = Some (VNum (NInt 1)) /\ sget (initial_values c) "Sub"%string = Some (VNum (NInt 4)) /\
  sget (initial_values c) "Speed"%string = Some (VNum (NInt 7)).
Proof.
  cbv zeta. split; [exact ex_strict|]. split; [|split; [|split]; vm_compute; reflexivity].
  assert (C : forall x, In x ex_sigs -> In x (m_signals ex_msg)).
  { intros x H. repeat (destruct H as [<-|H]; [vm_compute; tauto|]). contradiction. }
  change (tc_msg (conf_init ex_msg [("Speed"%string, VNum (NInt 7))])) with ex_msg.
  intros s H EM _. sig_cases H; try discriminate EM.
  - change (leaf_below (m_signals ex_msg) (mkSignal "Mux" 0 4 false false plain_conv None None true None None)).
    apply (leaf_child _ _ (muxed "C" 35 9 true false plain_conv [2] "Mux") [2] 2); [|reflexivity|reflexivity|now left|now left].
    apply C. cbn. tauto.
  - change (leaf_below (m_signals ex_msg) (mkSignal "Sub" 24 3 false false plain_conv None None true (Some [0; 1]) (Some "Mux"%string))).
    apply (leaf_child _ _ (muxed "D" 40 5 false false plain_conv [3; 4] "Sub") [3; 4] 3); [|reflexivity|reflexivity|now left|now left].
    apply C. cbn. tauto.
Qed.

Definition one_message (s : signal) : message :=
  match mk_message 1 false "One" 1 0 [s] true SortDefault with Ok m => m | Err _ => ex_msg end.
Lemma one_strict s : mk_message 1 false "One" 1 0 [s] true SortDefault = Ok (one_message s) -> 0 <= s_start s -> built_conv (s_conv s) ->
  strict_message (one_message s).
Proof.
  intros H P B. exists 1, false, "One"%string, 1, 0, [s]. split; [exact H|]. split; [lia|]. split; [repeat constructor; intros []|].
  split; intros x [<-|[]]; assumption.
Qed.

(** A maximum below 0 without a minimum: the initial value 0 is not allowed, and the tester cannot be made. *)
Definition freezing : signal := mkSignal "T" 0 8 false true plain_conv None (Some (NInt (-1))) false None None.
Theorem C53_negative_maximum_refuted :
  strict_message (one_message freezing) /\
  sget (initial_values (conf_init (one_message freezing) [])) "T"%string = Some (VNum (NInt 0)) /\ ~ allows freezing (NInt 0) /\
  new_tester None [conf_init (one_message freezing) []] = Err EncodeError.
Proof.
  split; [apply one_strict; [vm_compute; reflexivity|cbn; lia|apply built_conv_of; eexists; vm_compute; reflexivity]|].
  split; [vm_compute; reflexivity|]. split; [|vm_compute; reflexivity].
  intros [_ H]. specialize (H _ eq_refl). discriminate H.
Qed.

(** A multiplexer that has known ids only by its value table, without 0: its initial value is unknown, and
    the tester cannot be made. *)
Definition selecting : signal :=
  mkSignal "M" 0 8 false false (conv_of (NInt 1) (NInt 0) (Some [(1, ChNamed 1 "A"); (2, ChNamed 2 "B")]%string) false) None None true None None.
Theorem C53_value_table_refuted :
  strict_message (one_message selecting) /\ known_id [selecting] selecting 1 /\
  sget (initial_values (conf_init (one_message selecting) [])) "M"%string = Some (VNum (NInt 0)) /\ ~ known_id [selecting] selecting 0 /\
  new_tester None [conf_init (one_message selecting) []] = Err EncodeError.
Proof.
  split; [apply one_strict; [vm_compute; reflexivity|cbn; lia|apply built_conv_of; eexists; vm_compute; reflexivity]|].
  split; [right; eexists; split; [vm_compute; reflexivity|now left]|]. split; [vm_compute; reflexivity|]. split; [|vm_compute; reflexivity].
  intros [(c & ids & [<-|[]] & E & _)|(ch & E & HI)]; [discriminate E|]. vm_compute in E. injection E as <-.
  destruct HI as [E|[E|[]]]; discriminate E.
Qed.
