(** CLevels: the generated code of whole messages selects and packs the active signals. *)
From Coq Require Import Permutation.
From Verif Require Import Base PyNum Conversion Signal Formats Message LayoutSpec CodecSpec DictLemmas BitsLemmas GenItems NodeProofs
     TreeProofs Construct CodecThms RoundTrip MsgThms CSource CSegments CProofs.

(** A case label has the value written in the source. *)
Definition label_fits (s : signal) (i : Z) : Prop :=
  let W := Z.max 32 (type_length s) in
  if s_signed s || (type_length s <=? 16) then - 2 ^ (W - 1) <= i < 2 ^ (W - 1) else 0 <= i < 2 ^ W.

Lemma label_const s i : label_fits s i -> case_const (type_length s) (s_signed s) i = i.
Proof.
  unfold label_fits, case_const, promoted_signed, promoted_width. cbv zeta. set (W := Z.max 32 (type_length s)). intros H.
  assert (HW : 32 <= W) by (unfold W; lia).
  unfold c_int. assert (E : 2 ^ W = 2 * 2 ^ (W - 1)) by (rewrite <- Z.pow_succ_r by lia; f_equal; lia).
  destruct (_ || _); cbn [andb].
  - destruct (Z.lt_ge_cases i 0).
    + replace (i mod 2 ^ W) with (i + 2 ^ W) by (apply Z.mod_unique with (-1); lia).
      destruct (Z.leb_spec (2 ^ (W - 1)) (i + 2 ^ W)); lia.
    + rewrite Z.mod_small by lia. destruct (Z.leb_spec (2 ^ (W - 1)) i); lia.
  - now apply Z.mod_small.
Qed.

(** Everything generated C code needs of the signals of a message *)
Record c_friendly (all : list signal) : Prop := {
  cf_names : names_unique all;
  cf_pos : forall s, In s all -> 0 < s_length s;
  cf_start : forall s, In s all -> 0 <= s_start s;
  cf_ok : forall s, In s all -> c_ok s;
  cf_labels : forall s i, In s all -> s_is_mux s = true -> known_id all s i -> label_fits s i
}.

(** Multiplexer values in the struct *)
Definition mem_selectors (all : list signal) (mem : string -> Z) (name : string) : option Z :=
  option_map (fun s => c_int (type_length s) (s_signed s) (mem (member s))) (find_signal all name).

Lemma pack_level_eq all sigs fm muxes :
  pack_level all (create_signal_tree (Codec sigs fm muxes)) =
  flat_map (fun s => signal_code pack_signal all (s_name s)) sigs ++
  flat_map (fun s => match sget muxes (s_name s) with
                     | Some bs => switch_on all (s_name s) (map (fun ic => (fst ic, pack_level all (create_signal_tree (snd ic)))) bs)
                     | None => []
                     end) sigs.
Proof.
  rewrite signal_tree_eq. cbn [pack_level]. f_equal.
  - induction sigs as [|s r IH]; [reflexivity|]. cbn. now rewrite IH.
  - induction sigs as [|s r IH]; [reflexivity|]. cbn [map flat_map]. destruct (sget muxes (s_name s)) as [bs|]; cbn [option_map].
    + f_equal; [|exact IH]. f_equal. induction bs as [|[i c] bs IHb]; [reflexivity|]. cbn [map fst snd]. f_equal. exact IHb.
    + exact IH.
Qed.

Lemma unpack_level_eq all recv sigs fm muxes :
  unpack_level all recv (create_signal_tree (Codec sigs fm muxes)) =
  flat_map (fun s => if recv (s_name s) || (match sget muxes (s_name s) with Some _ => true | None => false end)
                     then signal_code unpack_signal all (s_name s) else []) sigs ++
  flat_map (fun s => match sget muxes (s_name s) with
                     | Some bs => switch_on all (s_name s) (map (fun ic => (fst ic, unpack_level all recv (create_signal_tree (snd ic)))) bs)
                     | None => []
                     end) sigs.
Proof.
  rewrite signal_tree_eq. cbn [unpack_level]. f_equal.
  - induction sigs as [|s r IH]; [reflexivity|]. cbn [map flat_map fst snd]. rewrite <- IH. f_equal.
    destruct (sget muxes (s_name s)); cbn [option_map]; [now rewrite orb_true_r|now rewrite orb_false_r].
  - induction sigs as [|s r IH]; [reflexivity|]. cbn [map flat_map]. destruct (sget muxes (s_name s)) as [bs|]; cbn [option_map].
    + f_equal; [|exact IH]. f_equal. induction bs as [|[i c] bs IHb]; [reflexivity|]. cbn [map fst snd]. f_equal. exact IHb.
    + exact IH.
Qed.

Section Levels.
  Variable host : bool.
  Variable all : list signal.
  Variable n : Z.
  Hypothesis CF : c_friendly all.

  Lemma known_children s i : In i (children_ids all s) <-> known_id all s i.
  Proof. apply children_ids_spec. Qed.

  (** ** Packing *)
  Definition fits_rep (e : cstate) (s : signal) : Prop :=
    sig_fits (zlen (c_buf e)) s /\ 0 <= c_mem e (member s) < 2 ^ type_length s.

  Definition bits_of (e : cstate) (l : list signal) (b : Z) : Prop := exists s, In s l /\ signal_bits s (c_mem e (member s)) b.

  Lemma pack_body l : (forall s, In s l -> In s all) -> forall e,
    bytes_ok (c_buf e) -> (forall s, In s l -> fits_rep e s) ->
    exists e', crun host (flat_map (fun s => signal_code pack_signal all (s_name s)) l) e = Some e' /\ adds e e' (bits_of e l).
  Proof.
    induction l as [|s l IH]; intros IN e BO FR.
    { exists e. split; [reflexivity|]. apply adds_refl. intros b (s & [] & _). }
    assert (Hs : In s all) by (apply IN; now left). destruct (FR s (or_introl eq_refl)) as [F1 F2].
    cbn [flat_map]. rewrite crun_app. unfold signal_code at 1. rewrite find_signal_in by (auto; apply CF).
    destruct (pack_signal_run host s e) as (e1 & -> & A1); auto; try (now apply CF).
    destruct (IH (fun t H => IN t (or_intror H)) e1) as (e2 & -> & A2).
    { now apply A1. }
    { intros t Ht. destruct (FR t (or_intror Ht)) as [G1 G2]. split; [now rewrite (ad_len _ _ _ A1)|now rewrite (ad_mem _ _ _ A1)]. }
    exists e2. split; [reflexivity|]. eapply adds_ext; [|eapply adds_trans; [exact A1|exact A2]].
    intros b. unfold bits_of. rewrite (ad_mem _ _ _ A1). split.
    - intros [H|(t & Ht & H)]; [exists s; split; [now left|exact H]|]. exists t. split; [now right|exact H].
    - intros (t & [->|Ht] & H); [now left|]. right. eauto.
  Qed.

  Lemma pack_core p mid c : wfc all n p mid c -> forall e,
    bytes_ok (c_buf e) -> (forall s, In s (sel_list (mem_selectors all (c_mem e)) c) -> fits_rep e s) ->
    exists e', crun host (pack_level all (create_signal_tree c)) e = Some e' /\
      adds e e' (bits_of e (sel_list (mem_selectors all (c_mem e)) c)).
  Proof.
    intros W. induction W as [p mid fm muxes HF ND SH CO SUB IH]. intros e BO FR.
    rewrite pack_level_eq, crun_app. set (sigs := filter (belongs p mid) all) in *.
    assert (IN : forall s, In s sigs -> In s all) by (intros s Hs; apply filter_In in Hs; tauto).
    set (mv := mem_selectors all (c_mem e)) in *.
    destruct (pack_body sigs IN e BO) as (e1 & -> & A1).
    { intros s Hs. apply FR. apply sel_list_in. now left. }
    assert (MUX : forall l, (forall s, In s l -> In s sigs) -> forall e1,
      bytes_ok (c_buf e1) -> c_mem e1 = c_mem e -> zlen (c_buf e1) = zlen (c_buf e) ->
      exists e2, crun host (flat_map (fun s => match sget muxes (s_name s) with
                     | Some bs => switch_on all (s_name s) (map (fun ic => (fst ic, pack_level all (create_signal_tree (snd ic)))) bs)
                     | None => [] end) l) e1 = Some e2 /\
        adds e1 e2 (bits_of e (flat_map (sel_sub mv muxes) l))).
    { clear A1 e1. induction l as [|s l IHl]; intros IN' e1 B1 M1 L1.
      { exists e1. split; [reflexivity|]. apply adds_refl. intros b (s & [] & _). }
      cbn [flat_map]. rewrite crun_app.
      assert (Hs : In s sigs) by (apply IN'; now left).
      assert (STEP : exists e2, crun host (match sget muxes (s_name s) with
                     | Some bs => switch_on all (s_name s) (map (fun ic => (fst ic, pack_level all (create_signal_tree (snd ic)))) bs)
                     | None => [] end) e1 = Some e2 /\ adds e1 e2 (bits_of e (sel_sub mv muxes s))).
      { unfold sel_sub. destruct (sget muxes (s_name s)) as [bs|] eqn:G.
        2:{ exists e1. split; [reflexivity|]. apply adds_refl. intros b (t & [] & _). }
        apply (get_in _ sspec) in G as G'. destruct (SH _ _ G') as (m & Hm & En & Em & K & _).
        assert (m = s) by (apply (NoDup_map_inj s_name all); auto; apply CF). subst m.
        assert (RS := run_switch host all s (map (fun ic => (fst ic, create_signal_tree (snd ic))) bs) e1 (pack_level all)).
        rewrite !map_map in RS. cbn [fst snd] in RS. rewrite RS; clear RS.
        - rewrite M1. unfold mv at 1, mem_selectors. rewrite find_signal_in by (auto; apply CF). cbn [option_map].
          set (v := c_int _ _ _).
          assert (Z1 : zget (map (fun ic => (fst ic, create_signal_tree (snd ic))) bs) v = option_map create_signal_tree (zget bs v)).
          { clear. induction bs as [|[i c] r IH]; [reflexivity|]. cbn. destruct (i =? v); auto. }
          rewrite Z1. destruct (zget bs v) as [c'|] eqn:GV; cbn [option_map].
          + apply (get_in _ zspec) in GV as GV'. destruct (IH _ _ _ _ G' GV' e1 B1) as (e2 & R2 & A2).
            { rewrite M1. fold mv. intros t Ht. destruct (FR t) as [F1 F2].
              { apply sel_list_in. right. exists s, bs, v, c'. split; [exact Hs|]. split; [exact G|].
                split; [unfold mv, mem_selectors; rewrite find_signal_in by (auto; apply CF); reflexivity|]. auto. }
              split; [now rewrite L1|now rewrite M1]. }
            exists e2. split; [exact R2|]. rewrite M1 in A2. fold mv in A2. eapply adds_ext; [|exact A2].
            intros b. unfold bits_of. now rewrite M1.
          + exists e1. split; [reflexivity|]. apply adds_refl. intros b (t & [] & _).
        - apply CF.
        - auto.
        - change (NoDup (map fst bs)). rewrite K. apply children_ids_spec.
        - intros k Hk. change (In k (map fst bs)) in Hk. rewrite K in Hk. apply label_const.
          apply (cf_labels _ CF); auto. now apply known_children. }
      destruct STEP as (e2 & -> & A2). 
      destruct (IHl (fun t H => IN' t (or_intror H)) e2) as (e3 & -> & A3).
      { now apply A2. } { rewrite (ad_mem _ _ _ A2). exact M1. } { rewrite (ad_len _ _ _ A2). exact L1. }
      exists e3. split; [reflexivity|]. eapply adds_ext; [|eapply adds_trans; [exact A2|exact A3]].
      intros b. unfold bits_of. split.
      - intros [(t & Ht & H)|(t & Ht & H)]; exists t; (split; [apply in_or_app; auto|exact H]).
      - intros (t & Ht & H). apply in_app_or in Ht. destruct Ht; [left|right]; eauto. }
    destruct (MUX sigs (fun s H => H) e1) as (e2 & -> & A2); [now apply A1|apply A1|apply A1|].
    exists e2. split; [reflexivity|]. eapply adds_ext; [|eapply adds_trans; [exact A1|exact A2]].
    intros b. unfold bits_of. rewrite sel_list_eq. split.
    - intros [(t & Ht & H)|(t & Ht & H)]; exists t; (split; [apply in_flat_map|exact H]).
      + exists t. split; [exact Ht|now left].
      + apply in_flat_map in Ht. destruct Ht as (s & Hs & Ht). exists s. split; [exact Hs|now right].
    - intros (t & Ht & H). apply in_flat_map in Ht. destruct Ht as (s & Hs & [->|Ht]); [left; eauto|].
      right. exists t. split; [apply in_flat_map; eauto|exact H].
  Qed.

  (** ** Unpacking *)
  Hypothesis MI : NoDup (map member all).

  (** Signals whose members are written: the received ones, and every multiplexer that has branches. *)
  Definition written (recv : string -> bool) (s : signal) : bool :=
    recv (s_name s) || (s_is_mux s && match children_ids all s with [] => false | _ => true end).

  (** Exactly the members of [l] are set, to the values found in the buffer. *)
  Record sets (e e' : cstate) (l : list signal) : Prop := {
    se_buf : c_buf e' = c_buf e;
    se_in : forall s, In s l -> c_mem e' (member s) = member_rep (c_buf e) s;
    se_out : forall k, (forall s, In s l -> member s <> k) -> c_mem e' k = c_mem e k
  }.

  Lemma sets_trans e e1 e2 l l' : (forall s, In s l -> In s all) -> (forall s, In s l' -> In s all) ->
    sets e e1 l -> sets e1 e2 l' -> sets e e2 (l ++ l').
  Proof.
    intros I1 I2 [A1 A2 A3] [B1 B2 B3]. split; [congruence| |].
    - intros s Hs. apply in_app_or in Hs. rewrite A1 in *.
      destruct (in_dec string_dec (member s) (map member l')) as [D|D].
      + apply in_map_iff in D. destruct D as (t & E & Ht).
        assert (t = s). { apply (NoDup_map_inj member all); auto. destruct Hs; auto. }
        subst t. now apply B2.
      + assert (N : ~ In s l') by (intros H; apply D; now apply in_map). rewrite B3.
        * apply A2. tauto.
        * intros t Ht E. apply D. rewrite <- E. now apply in_map.
    - intros k Hk. rewrite B3, A3; [reflexivity| |]; intros s Hs; apply Hk, in_or_app; auto.
  Qed.

  Lemma sets_ext e e' l l' : (forall s, In s l <-> In s l') -> sets e e' l -> sets e e' l'.
  Proof.
    intros H [A1 A2 A3]. split; [exact A1| |].
    - intros s Hs. apply A2. now apply H.
    - intros k Hk. apply A3. intros s Hs. apply Hk. now apply H.
  Qed.

  Lemma unpack_body (recv : signal -> bool) l : (forall s, In s l -> In s all) -> forall e,
    bytes_ok (c_buf e) -> (forall s, In s l -> sig_fits (zlen (c_buf e)) s) ->
    exists e', crun host (flat_map (fun s => if recv s then signal_code unpack_signal all (s_name s) else []) l) e = Some e' /\
      sets e e' (filter recv l).
  Proof.
    induction l as [|s l IH]; intros IN e BO FR.
    { exists e. split; [reflexivity|]. split; [reflexivity|intros s []|reflexivity]. }
    assert (Hs : In s all) by (apply IN; now left). cbn [flat_map filter]. rewrite crun_app.
    destruct (recv s) eqn:R.
    - unfold signal_code at 1. rewrite find_signal_in by (auto; apply CF).
      destruct (unpack_signal_run host s e) as (e1 & -> & B1 & V1 & O1); try (now apply CF); auto.
      { apply FR. now left. }
      destruct (IH (fun t H => IN t (or_intror H)) e1) as (e2 & -> & A2).
      { now rewrite B1. } { intros t Ht. rewrite B1. apply FR. now right. }
      exists e2. split; [reflexivity|]. change (s :: filter recv l) with ([s] ++ filter recv l).
      apply sets_trans with e1; auto.
      + intros t [<-|[]]. exact Hs.
      + intros t Ht. apply filter_In in Ht. apply IN. right. tauto.
      + split; [exact B1|intros t [<-|[]]; exact V1|]. intros k Hk. apply O1. intros ->. apply (Hk s); [now left|reflexivity].
    - cbn [crun]. apply IH; auto. + intros t Ht. apply IN. now right. + intros t Ht. apply FR. now right.
  Qed.

  (** Multiplexer values in the buffer, as the generated code reads them *)
  Definition buf_selectors (buf : list Z) (name : string) : option Z :=
    option_map (fun s => c_int (type_length s) (s_signed s) (member_rep buf s)) (find_signal all name).

  Lemma unpack_core recv p mid c : wfc all n p mid c -> forall e,
    bytes_ok (c_buf e) -> (forall s, In s (sel_list (buf_selectors (c_buf e)) c) -> sig_fits (zlen (c_buf e)) s) ->
    exists e', crun host (unpack_level all recv (create_signal_tree c)) e = Some e' /\
      sets e e' (filter (written recv) (sel_list (buf_selectors (c_buf e)) c)).
  Proof.
    intros W. induction W as [p mid fm muxes HF ND SH CO SUB IH]. intros e BO FR.
    rewrite unpack_level_eq, crun_app. set (sigs := filter (belongs p mid) all) in *.
    assert (IN : forall s, In s sigs -> In s all) by (intros s Hs; apply filter_In in Hs; tauto).
    set (mv := buf_selectors (c_buf e)) in *.
    assert (INS : forall s, In s (sel_list mv (Codec sigs fm muxes)) -> In s all).
    { intros s Hs. assert (W : wfc all n p mid (Codec sigs fm muxes)) by (constructor; auto).
      apply (sel_list_desc all n mv p mid _ (cf_names _ CF) W) in Hs. clear -Hs. induction Hs; auto. }
    assert (MX : forall s, In s sigs -> (match sget muxes (s_name s) with Some _ => true | None => false end) =
                 (s_is_mux s && match children_ids all s with [] => false | _ => true end)).
    { intros s Hs. destruct (sget muxes (s_name s)) as [bs|] eqn:G.
      - apply (get_in _ sspec) in G. destruct (SH _ _ G) as (m & Hm & En & Em & K & NE).
        assert (m = s) by (apply (NoDup_map_inj s_name all); auto; apply CF). subst m. rewrite Em. destruct (children_ids all s); [contradiction|reflexivity].
      - destruct (s_is_mux s) eqn:Em; [|reflexivity]. destruct (children_ids all s) as [|i r] eqn:E; [reflexivity|].
        destruct (CO s Hs Em) as [bs Hbs]; [now rewrite E|]. apply (in_get _ sspec) in Hbs; [congruence|exact ND]. }
    destruct (unpack_body (written recv) sigs IN e BO) as (e1 & R1 & A1).
    { intros s Hs. apply FR. apply sel_list_in. now left. }
    assert (EQ : flat_map (fun s => if recv (s_name s) || (match sget muxes (s_name s) with Some _ => true | None => false end)
                     then signal_code unpack_signal all (s_name s) else []) sigs =
                 flat_map (fun s => if written recv s then signal_code unpack_signal all (s_name s) else []) sigs).
    { clear -MX. induction sigs as [|s l IHl]; [reflexivity|]. cbn [flat_map]. rewrite IHl by (intros; apply MX; now right).
      unfold written. now rewrite MX by now left. }
    rewrite EQ, R1. clear EQ R1.
    assert (MUX : forall l, (forall s, In s l -> In s sigs) -> forall e1,
      c_buf e1 = c_buf e -> (forall s, In s sigs -> written recv s = true -> c_mem e1 (member s) = member_rep (c_buf e) s) ->
      exists e2, crun host (flat_map (fun s => match sget muxes (s_name s) with
                     | Some bs => switch_on all (s_name s) (map (fun ic => (fst ic, unpack_level all recv (create_signal_tree (snd ic)))) bs)
                     | None => [] end) l) e1 = Some e2 /\
        sets e1 e2 (filter (written recv) (flat_map (sel_sub mv muxes) l))).
    { clear A1 e1. induction l as [|s l IHl]; intros IN' e1 B1 M1.
      { exists e1. split; [reflexivity|]. split; [reflexivity|intros s []|reflexivity]. }
      cbn [flat_map]. rewrite crun_app.
      assert (Hs : In s sigs) by (apply IN'; now left).
      assert (STEP : exists e2, crun host (match sget muxes (s_name s) with
                     | Some bs => switch_on all (s_name s) (map (fun ic => (fst ic, unpack_level all recv (create_signal_tree (snd ic)))) bs)
                     | None => [] end) e1 = Some e2 /\ sets e1 e2 (filter (written recv) (sel_sub mv muxes s))).
      { unfold sel_sub. destruct (sget muxes (s_name s)) as [bs|] eqn:G.
        2:{ exists e1. split; [reflexivity|]. split; [reflexivity|intros t []|reflexivity]. }
        apply (get_in _ sspec) in G as G'. destruct (SH _ _ G') as (m & Hm & En & Em & K & NE).
        assert (m = s) by (apply (NoDup_map_inj s_name all); auto; apply CF). subst m.
        assert (WS : written recv s = true).
        { unfold written. rewrite Em. destruct (children_ids all s); [contradiction|]. apply orb_true_r. }
        assert (RS := run_switch host all s (map (fun ic => (fst ic, create_signal_tree (snd ic))) bs) e1 (unpack_level all recv)).
        rewrite !map_map in RS. cbn [fst snd] in RS. rewrite RS; clear RS.
        - rewrite M1 by assumption. unfold mv at 1, buf_selectors. rewrite find_signal_in by (auto; apply CF). cbn [option_map].
          set (v := c_int _ _ _).
          assert (Z1 : zget (map (fun ic => (fst ic, create_signal_tree (snd ic))) bs) v = option_map create_signal_tree (zget bs v)).
          { clear. induction bs as [|[i c] r IH]; [reflexivity|]. cbn. destruct (i =? v); auto. }
          rewrite Z1. destruct (zget bs v) as [c'|] eqn:GV; cbn [option_map].
          + apply (get_in _ zspec) in GV as GV'. destruct (IH _ _ _ _ G' GV' e1) as (e2 & R2 & A2).
            { now rewrite B1. }
            { rewrite B1. fold mv. intros t Ht. apply FR.
              apply sel_list_in. right. exists s, bs, v, c'. split; [exact Hs|]. split; [exact G|].
              split; [unfold mv, buf_selectors; rewrite find_signal_in by (auto; apply CF); reflexivity|]. auto. }
            exists e2. split; [exact R2|]. rewrite B1 in A2. exact A2.
          + exists e1. split; [reflexivity|]. split; [reflexivity|intros t []|reflexivity].
        - apply CF.
        - auto.
        - change (NoDup (map fst bs)). rewrite K. apply children_ids_spec.
        - intros k Hk. change (In k (map fst bs)) in Hk. rewrite K in Hk. apply label_const.
          apply (cf_labels _ CF); auto. now apply known_children. }
      destruct STEP as (e2 & -> & A2).
      assert (SUBIN : forall x, In x sigs -> forall t, In t (filter (written recv) (sel_sub mv muxes x)) -> In t all).
      { intros x Hx t Ht. apply filter_In in Ht. apply INS. rewrite sel_list_eq. apply in_flat_map. exists x. split; [exact Hx|]. right. tauto. }
      destruct (IHl (fun t H => IN' t (or_intror H)) e2) as (e3 & -> & A3).
      { rewrite (se_buf _ _ _ A2). exact B1. }
      { intros t Ht WT. destruct (in_dec string_dec (member t) (map member (filter (written recv) (sel_sub mv muxes s)))) as [D|D].
        - apply in_map_iff in D. destruct D as (t' & E & Ht'). rewrite <- E. rewrite (se_in _ _ _ A2) by assumption. rewrite B1.
          assert (t' = t) by (apply (NoDup_map_inj member all); eauto). now subst t'.
        - rewrite (se_out _ _ _ A2); [auto|]. intros t' Ht' E. apply D. rewrite <- E. now apply in_map. }
      exists e3. split; [reflexivity|]. rewrite filter_app. apply sets_trans with e2; eauto.
      intros t Ht. apply filter_In in Ht. destruct Ht as [Ht WT]. apply in_flat_map in Ht. destruct Ht as (x & Hx & Ht).
      apply (SUBIN x); [apply IN'; now right|]. apply filter_In. auto. }
    destruct (MUX sigs (fun s H => H) e1) as (e2 & R2 & A2).
    { apply A1. }
    { intros s Hs WS. apply (se_in _ _ _ A1). now apply filter_In. }
    exists e2. split; [exact R2|]. eapply sets_ext; [|eapply sets_trans; [| |exact A1|exact A2]].
    - intros t. rewrite in_app_iff, !filter_In, sel_list_eq, !in_flat_map. split.
      + intros [[Ht WT]|[(x & Hx & Ht) WT]]; (split; [|exact WT]); [exists t; split; [exact Ht|now left]|].
        exists x. split; [exact Hx|now right].
      + intros [(x & Hx & [->|Ht]) WT]; [left; auto|right; eauto].
    - intros t Ht. apply filter_In in Ht. apply IN. tauto.
    - intros t Ht. apply filter_In in Ht. destruct Ht as [Ht _]. apply in_flat_map in Ht. destruct Ht as (x & Hx & Ht).
      apply INS. rewrite sel_list_eq. apply in_flat_map. exists x. split; [exact Hx|now right].
  Qed.
End Levels.
