(** Strict: strict encoding (C12), the signal tree (C51) and the sort functions (C50). *)
From Coq Require Import Sorting.Permutation Sorting.Sorted Floats.SpecFloat Structures.OrderedTypeEx.
From Verif Require Import Base PyNum Conversion Signal Bitstruct Formats Message LayoutSpec CodecSpec
     DictLemmas BitsLemmas FloatBits GenItems NodeProofs CheckSignal TreeProofs MsgProofs
     CheckComplete Construct CodecThms RoundTrip MsgThms.
Ltac Zify.zify_post_hook ::= Z.div_mod_to_equations.

(** ** Strict encoding *)

(** message.py:736-778 in words: the tolerance is |scale| * 1e-6, all in Python arithmetic. *)
Definition in_range (s : signal) (x : num) : Prop :=
  (forall mn, s_min s = Some mn ->
     exists t lo, py_mul (py_abs (conv_scale (s_conv s))) (NFlt f1e6) = Ok t /\ py_sub mn t = Ok lo /\ py_lt x lo = false) /\
  (forall mx, s_max s = Some mx ->
     exists t hi, py_mul (py_abs (conv_scale (s_conv s))) (NFlt f1e6) = Ok t /\ py_add mx t = Ok hi /\ py_gt x hi = false).

Definition in_table (s : signal) (raw : num) : Prop :=
  exists ch c, conv_choices (s_conv s) = Some ch /\ choices_lookup ch raw = Some c.

(** A value strict encoding accepts. *)
Definition value_allowed (s : signal) (scaling : bool) (v : value) : Prop :=
  match v with
  | VStr l | VNamed _ l => exists ch z, conv_choices (s_conv s) = Some ch /\ label_number ch l = Some z
  | VNum x =>
      exists scaled raw,
        (if scaling then scaled = x /\ numeric_scaled_to_raw (s_conv s) x = Ok raw
         else raw = x /\ raw_to_scaled (s_conv s) x false = Ok (VNum scaled)) /\
        (in_table s raw \/ in_range s scaled)
  end.

Lemma assert_value_iff s v sc : built_conv (s_conv s) ->
  assert_value_valid s v sc = Ok tt <-> value_allowed s sc v.
Proof.
  intros B.
  assert (LAB : forall l, (let* _ := choice_to_number (s_conv s) l in Ok tt) = Ok tt <->
            exists ch z, conv_choices (s_conv s) = Some ch /\ label_number ch l = Some z).
  { intros l. split.
    - intros H. apply bind_ok in H. destruct H as (z & Hz & _). apply (choice_number_spec _ _ _ B) in Hz.
      destruct Hz as (ch & H1 & H2). eauto.
    - intros (ch & z & H1 & H2). rewrite (proj2 (choice_number_spec _ _ z B)); [reflexivity|eauto]. }
  assert (TAB : forall raw, choices_contains (s_conv s) raw = true <-> in_table s raw).
  { intros raw. unfold choices_contains, in_table. destruct (conv_choices (s_conv s)) as [ch|].
    - destruct (choices_lookup ch raw) as [c|] eqn:E.
      + split; [eauto|reflexivity].
      + split; [discriminate|]. intros (ch' & c & [= <-] & H). congruence.
    - split; [discriminate|]. intros (ch' & c & [=] & _). }
  assert (RNG : forall x, (let* _ := match s_min s with
                  | None => Ok tt
                  | Some mn =>
                      let* t := range_tolerance (s_conv s) in
                      let* lo := py_sub mn t in
                      if py_lt x lo then Err EncodeError else Ok tt
                  end in
        match s_max s with
        | None => Ok tt
        | Some mx =>
            let* t := range_tolerance (s_conv s) in
            let* hi := py_add mx t in
            if py_gt x hi then Err EncodeError else Ok tt
        end) = Ok tt <-> in_range s x).
  { intros x. unfold in_range, range_tolerance. split.
    - intros H. apply bind_ok in H. destruct H as ([] & HL & HH). split.
      + intros mn E. rewrite E in HL. apply bind_ok in HL. destruct HL as (t & Ht & HL). apply bind_ok in HL. destruct HL as (lo & Hlo & HL).
        exists t, lo. split; [assumption|]. split; [assumption|]. now destruct (py_lt x lo).
      + intros mx E. rewrite E in HH. apply bind_ok in HH. destruct HH as (t & Ht & HH). apply bind_ok in HH. destruct HH as (hi & Hhi & HH).
        exists t, hi. split; [assumption|]. split; [assumption|]. now destruct (py_gt x hi).
    - intros [HL HH].
      assert (L1 : match s_min s with
                  | None => Ok tt
                  | Some mn =>
                      let* t := py_mul (py_abs (conv_scale (s_conv s))) (NFlt f1e6) in
                      let* lo := py_sub mn t in
                      if py_lt x lo then Err EncodeError else Ok tt
                  end = Ok tt).
      { destruct (s_min s) as [mn|]; [|reflexivity]. destruct (HL mn eq_refl) as (t & lo & E1 & E2 & E3).
        rewrite E1. cbn [bind]. rewrite E2. cbn [bind]. now rewrite E3. }
      rewrite L1. cbn [bind]. destruct (s_max s) as [mx|]; [|reflexivity].
      destruct (HH mx eq_refl) as (t & hi & E1 & E2 & E3). rewrite E1. cbn [bind]. rewrite E2. cbn [bind]. now rewrite E3. }
  destruct v as [x|l|z l]; cbn [assert_value_valid value_allowed]; auto.
  destruct sc.
  - split.
    + intros H. apply bind_ok in H. destruct H as ([scaled raw] & HR & H).
      apply bind_ok in HR. destruct HR as (r & Hr & HR). injection HR as <- <-.
      exists x, r. split; [auto|]. destruct (choices_contains (s_conv s) r) eqn:EC; [left; now apply TAB|right; now apply RNG].
    + intros (scaled & raw & [-> Hr] & H). rewrite Hr. cbn [bind].
      destruct (choices_contains (s_conv s) raw) eqn:EC; [reflexivity|]. apply RNG.
      destruct H as [H|H]; [apply TAB in H; congruence|assumption].
  - split.
    + intros H. apply bind_ok in H. destruct H as ([scaled raw] & HR & H).
      apply bind_ok in HR. destruct HR as (r & Hr & HR). destruct r as [r| |]; try discriminate. injection HR as <- <-.
      exists r, x. split; [auto|]. destruct (choices_contains (s_conv s) x) eqn:EC; [left; now apply TAB|right; now apply RNG].
    + intros (scaled & raw & [-> Hr] & H). rewrite Hr. cbn [bind].
      destruct (choices_contains (s_conv s) x) eqn:EC; [reflexivity|]. apply RNG.
      destruct H as [H|H]; [apply TAB in H; congruence|assumption].
Qed.

Lemma assert_values_iff all d sc :
  assert_values_valid all d sc = Ok tt <->
  forall k v, In (k, v) d -> exists s, get_signal all k = Ok s /\ assert_value_valid s v sc = Ok tt.
Proof.
  induction d as [|[k v] d IH]; cbn [assert_values_valid].
  - split; [intros _ k v []|reflexivity].
  - split.
    + intros H. apply bind_ok in H. destruct H as (s & Hs & H). apply bind_ok in H. destruct H as ([] & HV & H).
      intros k' v' [[= <- <-]|HI]; [eauto|]. now apply IH.
    + intros H. destruct (H k v) as (s & Hs & HV); [now left|]. rewrite Hs. cbn [bind]. rewrite HV. cbn [bind].
      apply IH. intros k' v' HI. apply H. now right.
Qed.

Theorem strict_encode_iff m d sc pad b :
  msg_ok m -> (forall s, In s (m_signals m) -> built_conv (s_conv s)) ->
  encode m d sc pad true = Ok b <->
  (encode m d sc pad false = Ok b /\
   (forall k, In k (map fst d) <-> exists s, active (m_signals m) (selectors (m_signals m) d) s /\ s_name s = k) /\
   forall s v, active (m_signals m) (selectors (m_signals m) d) s -> sget d (s_name s) = Some v -> value_allowed s sc v).
Proof.
  intros OK BC.
  assert (SE : encode m d sc pad true = Ok b <->
     assert_signals_encodable (m_signals m) (m_codec m) d sc = Ok tt /\ encode m d sc pad false = Ok b).
  { unfold encode at 1. split.
    - intros H. apply bind_ok in H. destruct H as ([] & HA & H). split; assumption.
    - intros [HA H]. rewrite HA. exact H. }
  rewrite SE. clear SE.
  assert (SK : forall (used : list (string * value)), same_keys used d = true <-> (forall k, In k (map fst used) <-> In k (map fst d))).
  { intros used. unfold same_keys. rewrite andb_true_iff, !forallb_forall. split.
    - intros [H1 H2] k. split; intros HI.
      + apply (mem_true _ sspec). now apply H1.
      + apply (mem_true _ sspec). now apply H2.
    - intros H. split; intros k HI; apply (mem_true _ sspec); now apply H. }
  split.
  - intros [HA HE]. split; [assumption|]. unfold assert_signals_encodable in HA.
    apply bind_ok in HA. destruct HA as (used & HG & HA).
    destruct (gather_spec m d used OK BC HG) as (G1 & G2 & G3 & G4).
    destruct (same_keys used d) eqn:ES; [|discriminate]. cbn [negb] in HA.
    rewrite SK in ES.
    assert (KEYS : forall k, In k (map fst d) <-> exists s, active (m_signals m) (selectors (m_signals m) d) s /\ s_name s = k).
    { intros k. rewrite <- ES. rewrite <- (get_in_keys _ sspec). split.
      - intros [v Hv]. now apply G3 in Hv.
      - intros (s & A & <-). destruct (G4 s A) as [v Hv]. exists v. apply G3. split; [assumption|]. exists s. auto. }
    split; [assumption|]. intros s v A Hv. rewrite assert_values_iff in HA.
    destruct (HA (s_name s) v) as (s' & HS' & HV).
    { apply (get_in _ sspec). apply G3. split; [assumption|]. exists s. auto. }
    rewrite get_signal_in in HS'; [|apply OK|now apply active_in in A]. injection HS' as <-.
    apply assert_value_iff in HV; [assumption|]. apply BC. now apply active_in in A.
  - intros (HE & KEYS & HV). split; [|assumption].
    assert (F := encode_frame m OK BC _ _ _ _ _ HE).
    destruct (gather_complete m d OK BC (ff_known _ _ _ _ _ F)) as [used HG].
    { intros s A. destruct (ff_bits _ _ _ _ _ F s A) as (v & _ & _ & V1 & _). eauto. }
    destruct (gather_spec m d used OK BC HG) as (G1 & G2 & G3 & G4).
    unfold assert_signals_encodable. unfold gather_signals in HG. rewrite HG. cbn [bind].
    assert (same_keys used d = true) as ->.
    { apply SK. intros k. rewrite KEYS. rewrite <- (get_in_keys _ sspec). split.
      - intros [v Hv]. now apply G3 in Hv.
      - intros (s & A & <-). destruct (G4 s A) as [v Hv]. exists v. apply G3. split; [assumption|]. exists s. auto. }
    cbn [negb]. apply assert_values_iff. intros k v HI.
    apply (in_get _ sspec) in HI; [|assumption]. apply G3 in HI. destruct HI as [Hv (s & A & <-)].
    exists s. split; [apply get_signal_in; [apply OK|now apply active_in in A]|].
    apply assert_value_iff; [apply BC; now apply active_in in A|]. now apply HV.
Qed.

(** ** The signal tree *)

(** Walking down [message.signal_tree] along (multiplexer, id) steps to a node with these names. *)
Inductive tree_node : stree -> list (string * Z) -> list string -> Prop :=
| tree_here nodes : tree_node (STree nodes) [] (map fst nodes)
| tree_step nodes name subs i t p names :
    In (name, Some subs) nodes -> In (i, t) subs -> tree_node t p names ->
    tree_node (STree nodes) ((name, i) :: p) names.

(** Documented: the signals directly below multiplexer [name] with id [i] (or without multiplexer). *)
Definition below_step (step : option (string * Z)) (s : signal) : bool :=
  match step, s_mux_sig s with
  | None, None => true
  | Some (name, i), Some name' =>
      String.eqb name' name && match s_mux_ids s with Some ids => zmem i ids | None => false end
  | _, _ => false
  end.

(** A path of the message: each step is a multiplexer below the previous step and a known id. *)
Inductive mux_path (all : list signal) : option (string * Z) -> list (string * Z) -> option (string * Z) -> Prop :=
| path_nil st : mux_path all st [] st
| path_cons st m i p st' :
    In m all -> below_step st m = true -> s_is_mux m = true -> known_id all m i ->
    mux_path all (Some (s_name m, i)) p st' -> mux_path all st ((s_name m, i) :: p) st'.

Lemma belongs_below (p : option string) (mid : option Z) st s :
  (p = None /\ mid = None /\ st = None) \/ (exists name i, p = Some name /\ mid = Some i /\ st = Some (name, i)) ->
  belongs p mid s = below_step st s.
Proof.
  intros [(-> & -> & ->)|(name & i & -> & -> & ->)]; unfold belongs, below_step; cbn.
  - now destruct (s_mux_sig s).
  - now destruct (s_mux_sig s) as [n|].
Qed.

Lemma tree_of_codec all n p mid c st :
  names_unique all -> wfc all n p mid c ->
  (p = None /\ mid = None /\ st = None) \/ (exists name i, p = Some name /\ mid = Some i /\ st = Some (name, i)) ->
  forall path names, tree_node (create_signal_tree c) path names <->
    exists st', mux_path all st path st' /\ names = map s_name (filter (below_step st') all).
Proof.
  intros U W. revert st. induction W as [p mid fm muxes HF ND SH CO SUB IH]. intros st HST path names.
  assert (EH : filter (belongs p mid) all = filter (below_step st) all).
  { apply filter_ext. intros s. now apply belongs_below. }
  rewrite signal_tree_eq. split.
  - intros H. inversion H as [nodes E1 E2|nodes name subs i t p' names' HI HT HN E1 E2]; subst.
    + exists st. split; [constructor|]. rewrite map_map. cbn. now rewrite EH.
    + apply in_map_iff in HI. destruct HI as (m & [= <- EM] & Hm).
      destruct (sget muxes (s_name m)) as [bs|] eqn:EB; [|discriminate]. cbn in EM. injection EM as <-.
      apply in_map_iff in HT. destruct HT as ([i' c'] & [= -> <-] & HC).
      apply (get_in _ sspec) in EB. destruct (SH _ _ EB) as (m' & Hm' & En & Em & Ek & _).
      assert (m' = m).
      { apply (NoDup_map_inj s_name all); auto; [apply filter_In in Hm'; tauto|apply filter_In in Hm; tauto]. }
      subst m'.
      destruct (proj1 (IH _ _ _ _ EB HC (Some (s_name m, i)) (or_intror (ex_intro _ _ (ex_intro _ _ (conj eq_refl (conj eq_refl eq_refl))))) p' names) HN) as (st' & HP & ->).
      exists st'. split; [|reflexivity]. rewrite EH in Hm. apply filter_In in Hm. destruct Hm as [Hma Hmb].
      apply path_cons; auto. apply children_known. rewrite <- Ek. change i with (fst (i, c')). now apply in_map.
  - intros (st' & HP & ->). inversion HP as [? E1 E2 E3|? m i p' ? Hm HB Em HK HP' E1 E2 E3]; subst.
    + rewrite <- EH.
      assert (EN : map s_name (filter (belongs p mid) all) =
                   map fst (map (fun s => (s_name s, option_map (map (fun ic => (fst ic, create_signal_tree (snd ic)))) (sget muxes (s_name s)))) (filter (belongs p mid) all))).
      { rewrite map_map. reflexivity. }
      rewrite EN. constructor.
    + assert (Hmh : In m (filter (belongs p mid) all)) by (rewrite EH; now apply filter_In).
      apply children_known in HK.
      destruct (CO m Hmh Em) as [bs Hbs]; [intros E; rewrite E in HK; contradiction|].
      destruct (SH _ _ Hbs) as (m' & Hm' & En & _ & Ek & _).
      assert (m' = m).
      { apply (NoDup_map_inj s_name all); auto. apply filter_In in Hm'; tauto. }
      subst m'. rewrite <- Ek in HK. apply in_map_iff in HK. destruct HK as ([i' c'] & Ei & HC). cbn in Ei. subst i'.
      apply tree_step with (map (fun ic => (fst ic, create_signal_tree (snd ic))) bs) (create_signal_tree c').
      * apply in_map_iff. exists m. split; [|assumption]. rewrite (in_get _ sspec _ _ _ ND Hbs). reflexivity.
      * apply in_map_iff. exists (i, c'). auto.
      * apply (IH _ _ _ _ Hbs HC (Some (s_name m, i))); [right; eauto|]. eauto.
Qed.

Theorem signal_tree_spec m path names :
  msg_ok m ->
  tree_node (m_tree m) path names <->
  exists st', mux_path (m_signals m) None path st' /\ names = map s_name (filter (below_step st') (m_signals m)).
Proof.
  intros OK. rewrite (mo_tree _ OK). apply (tree_of_codec (m_signals m) (m_length m) None None); [apply OK|apply OK|]. now left.
Qed.

(** ** Sorting *)
Section Stable.
  Context {A : Type} (leb : A -> A -> bool).
  Context (total : forall x y, leb x y = false -> leb y x = true).
  Context (trans : forall x y z, leb x y = true -> leb y z = true -> leb x z = true).

  Definition same_key (x y : A) : bool := leb x y && leb y x.

  Lemma insert_filter k x l :
    filter (same_key k) (insert_sorted leb x l) = filter (same_key k) (x :: l).
  Proof.
    induction l as [|y l IH]; [reflexivity|]. cbn [insert_sorted]. destruct (leb x y) eqn:E; [reflexivity|].
    cbn [filter] in *. rewrite IH. destruct (same_key k x) eqn:Ex; [|now destruct (same_key k y)].
    destruct (same_key k y) eqn:Ey; [|reflexivity]. exfalso. unfold same_key in *.
    apply andb_true_iff in Ex, Ey. assert (leb x y = true) by (eapply trans; [apply Ex|apply Ey]). congruence.
  Qed.

  (** Elements with equal keys keep their order. *)
  Lemma sorted_stable k l : filter (same_key k) (sorted_py leb l) = filter (same_key k) l.
  Proof.
    induction l as [|x l IH]; [reflexivity|]. cbn [sorted_py fold_right]. fold (sorted_py leb l).
    rewrite insert_filter. cbn [filter]. now rewrite IH.
  Qed.

  Lemma insert_head x l : (forall y, In y l -> leb x y = true) -> insert_sorted leb x l = x :: l.
  Proof. destruct l as [|y l]; [reflexivity|]. intros H. cbn. rewrite H; [reflexivity|now left]. Qed.

  Lemma sorted_fix l : StronglySorted (fun a b => leb a b = true) l -> sorted_py leb l = l.
  Proof.
    induction 1 as [|x l HS IH HF]; [reflexivity|]. cbn [sorted_py fold_right]. fold (sorted_py leb l). rewrite IH.
    apply insert_head. now apply Forall_forall.
  Qed.
  Lemma sorted_idem l : sorted_py leb (sorted_py leb l) = sorted_py leb l.
  Proof. apply sorted_fix. now apply sorted_py_sorted. Qed.

  (** Sorting a list ordered by [R] orders it by key first, then by [R]. *)
  Lemma sorted_lex (R : A -> A -> Prop) l :
    StronglySorted R l ->
    StronglySorted (fun a b => leb a b = true /\ (leb b a = true -> R a b)) (sorted_py leb l).
  Proof.
    induction 1 as [|x l HS IH HF]; [constructor|]. cbn [sorted_py fold_right]. fold (sorted_py leb l).
    assert (HF' : Forall (R x) (sorted_py leb l)).
    { rewrite Forall_forall in *. intros y Hy. apply HF. now apply (Permutation_in _ (sorted_py_perm leb l)). }
    clear HS HF. induction IH as [|y r HS' IHs HFr]; cbn [insert_sorted].
    - repeat constructor.
    - inversion HF' as [|? ? Rxy RF]; subst. destruct (leb x y) eqn:E.
      + constructor; [constructor; assumption|]. constructor; [auto|].
        rewrite Forall_forall in *. intros z Hz. destruct (HFr z Hz) as [L1 _]. split; [eapply trans; eauto|]. intros _. now apply RF.
      + constructor; [now apply IHs|]. rewrite Forall_forall in *. intros z Hz.
        apply (Permutation_in _ (insert_perm leb x r)) in Hz. destruct Hz as [<-|Hz]; [|now apply HFr].
        split; [now apply total|]. congruence.
  Qed.
End Stable.

Lemma ascii_compare_trans c1 c2 c3 :
  Ascii.compare c1 c2 <> Gt -> Ascii.compare c2 c3 <> Gt ->
  Ascii.compare c1 c3 <> Gt /\ (Ascii.compare c1 c3 = Eq -> Ascii.compare c1 c2 = Eq /\ Ascii.compare c2 c3 = Eq).
Proof.
  unfold Ascii.compare. rewrite !N.compare_le_iff. intros H1 H2. split; [lia|].
  rewrite !N.compare_eq_iff. lia.
Qed.

Lemma string_leb_trans x y z : String.leb x y = true -> String.leb y z = true -> String.leb x z = true.
Proof.
  unfold String.leb. revert y z. induction x as [|a x IH]; intros [|b y] [|c z]; cbn; try congruence; try reflexivity.
  assert (T := ascii_compare_trans a b c).
  destruct (Ascii.compare a b) eqn:E1, (Ascii.compare b c) eqn:E2; try discriminate;
    (destruct T as [T1 T2]; [congruence|congruence|]);
    destruct (Ascii.compare a c) eqn:E3; try congruence; try reflexivity; intros H1 H2.
  - eapply IH; eauto.
  - destruct (T2 eq_refl); congruence.
  - destruct (T2 eq_refl); congruence.
  - destruct (T2 eq_refl); congruence.
Qed.

Lemma string_leb_total x y : String.leb x y = false -> String.leb y x = true.
Proof. intros H. destruct (String.leb_total x y); congruence. Qed.

(** [out] is [l] put into the order [le], elements with equal keys keeping their order. *)
Definition stable_sort_of {A} (le : A -> A -> bool) (l out : list A) : Prop :=
  Permutation out l /\ StronglySorted (fun a b => le a b = true) out /\
  forall k, filter (fun x => le k x && le x k) out = filter (fun x => le k x && le x k) l.

Lemma stable_sort_exact {A} (leb : A -> A -> bool) l out :
  (forall x y, leb x y = false -> leb y x = true) ->
  (forall x y z, leb x y = true -> leb y z = true -> leb x z = true) ->
  stable_sort_of leb l out <-> out = sorted_py leb l.
Proof.
  intros total trans.
  assert (refl : forall x, leb x x = true) by (intros x; destruct (leb x x) eqn:E; [reflexivity|now rewrite (total _ _ E) in E]).
  split.
  - intros (HP & HS & HF).
    assert (HS2 := sorted_py_sorted leb total trans l).
    assert (HF2 : forall k, filter (same_key leb k) out = filter (same_key leb k) (sorted_py leb l)).
    { intros k. rewrite sorted_stable by assumption. apply HF. }
    clear HP HF. revert HF2 HS2. generalize (sorted_py leb l) as o2. clear l.
    induction HS as [|x l1 HS IH HX]; intros o2 HF HS2.
    + destruct o2 as [|y o2]; [reflexivity|]. specialize (HF y). cbn in HF. unfold same_key in HF. rewrite refl in HF. discriminate.
    + assert (Hx : In x o2).
      { apply (proj1 (filter_In (same_key leb x) x o2)). rewrite <- HF. cbn. unfold same_key. rewrite refl. now left. }
      destruct o2 as [|y o2]; [contradiction|]. inversion HS2 as [|? ? HS2' HY]; subst.
      assert (Hy : In y (x :: l1)).
      { apply (proj1 (filter_In (same_key leb y) y (x :: l1))). rewrite HF. cbn. unfold same_key. rewrite refl. now left. }
      rewrite Forall_forall in HX, HY.
      assert (L1 : leb x y = true) by (destruct Hy as [<-|Hy]; [apply refl|now apply HX]).
      assert (L2 : leb y x = true) by (destruct Hx as [<-|Hx]; [apply refl|now apply HY]).
      assert (x = y).
      { specialize (HF x). cbn in HF. unfold same_key in HF. rewrite refl, L1, L2 in HF. cbn in HF. congruence. }
      subst y. f_equal. apply IH; [|assumption]. intros k. specialize (HF k). cbn in HF. destruct (same_key leb k x); congruence.
  - intros ->. split; [apply sorted_py_perm|]. split; [now apply sorted_py_sorted|]. intros k. now apply (sorted_stable leb trans).
Qed.

Lemma filter_insert_gen {A} (leb : A -> A -> bool) (p : A -> bool) x l :
  (forall a b, p a = true -> p b = true -> leb a b = true) ->
  filter p (insert_sorted leb x l) = filter p (x :: l).
Proof.
  intros HP. induction l as [|y l IH]; [reflexivity|]. cbn [insert_sorted]. destruct (leb x y) eqn:E; [reflexivity|].
  cbn [filter] in *. rewrite IH. destruct (p x) eqn:Ex; [|now destruct (p y)].
  destruct (p y) eqn:Ey; [|reflexivity]. rewrite (HP x y Ex Ey) in E. discriminate.
Qed.
Lemma filter_sorted_gen {A} (leb : A -> A -> bool) (p : A -> bool) l :
  (forall a b, p a = true -> p b = true -> leb a b = true) ->
  filter p (sorted_py leb l) = filter p l.
Proof.
  intros HP. induction l as [|x l IH]; [reflexivity|]. cbn [sorted_py fold_right]. fold (sorted_py leb l).
  rewrite filter_insert_gen by assumption. cbn [filter]. now rewrite IH.
Qed.

(** utils.py:454-465 as one order: first multiplexer id (-1 without), unmultiplexed first, start bit. *)
Definition mux_order (a b : signal) : bool :=
  (mux_first a <? mux_first b) ||
  ((mux_first a =? mux_first b) &&
   ((negb (mux_truthy a) && mux_truthy b) ||
    (Bool.eqb (mux_truthy a) (mux_truthy b) && (start_bit a <=? start_bit b)))).

Lemma mux_order_total x y : mux_order x y = false -> mux_order y x = true.
Proof. unfold mux_order. destruct (mux_truthy x), (mux_truthy y); cbn; lia. Qed.
Lemma mux_order_trans x y z : mux_order x y = true -> mux_order y z = true -> mux_order x z = true.
Proof. unfold mux_order. destruct (mux_truthy x), (mux_truthy y), (mux_truthy z); cbn; lia. Qed.

Lemma StronglySorted_impl {A} (R S : A -> A -> Prop) l :
  (forall a b, R a b -> S a b) -> StronglySorted R l -> StronglySorted S l.
Proof. intros H. induction 1 as [|x l HS IH HF]; constructor; auto. eapply Forall_impl; [|eassumption]. auto. Qed.

Theorem sort_start_bit_spec l out :
  out = sort_signals_by_start_bit l <-> stable_sort_of (fun a b => start_bit a <=? start_bit b) l out.
Proof. symmetry. apply stable_sort_exact; intros *; lia. Qed.

Theorem sort_name_spec l out :
  out = sort_signals_by_name l <-> stable_sort_of (fun a b => String.leb (s_name a) (s_name b)) l out.
Proof. symmetry. apply stable_sort_exact; intros *; [apply string_leb_total|apply string_leb_trans]. Qed.

Theorem sort_mux_spec l out :
  out = sort_signals_by_start_bit_and_mux l <-> stable_sort_of mux_order l out.
Proof.
  assert (S1 : stable_sort_of mux_order l (sort_signals_by_start_bit_and_mux l)).
  { unfold sort_signals_by_start_bit_and_mux. split; [|split].
    - etransitivity; [apply sorted_py_perm|]. etransitivity; [apply sorted_py_perm|]. apply sort_default_perm.
    - assert (HS : StronglySorted (fun a b => (start_bit a <=? start_bit b) = true) (sort_signals_by_start_bit l)).
      { apply sorted_py_sorted; intros *; lia. }
      apply (sorted_lex (fun a b => implb (mux_truthy a) (mux_truthy b))) in HS.
      2: { intros x y. destruct (mux_truthy x), (mux_truthy y); auto. }
      2: { intros x y z. destruct (mux_truthy x), (mux_truthy y), (mux_truthy z); auto. }
      apply (sorted_lex (fun a b => mux_first a <=? mux_first b)) in HS; [|intros *; lia|intros *; lia].
      eapply StronglySorted_impl; [|exact HS]. intros a b [H1 H2]. unfold mux_order.
      destruct (mux_first b <=? mux_first a) eqn:E; [|lia]. destruct (H2 eq_refl) as [H3 H4].
      destruct (mux_truthy a), (mux_truthy b); cbn in *; try lia; specialize (H4 eq_refl); lia.
    - intros k. rewrite !filter_sorted_gen; [|intros a b Ha Hb..].
      + unfold sort_signals_by_start_bit. apply filter_sorted_gen. intros a b Ha Hb. unfold mux_order in *.
        destruct (mux_truthy a), (mux_truthy b), (mux_truthy k); cbn in *; lia.
      + unfold mux_order in *. destruct (mux_truthy a), (mux_truthy b), (mux_truthy k); cbn in *; lia.
      + unfold mux_order in *. destruct (mux_truthy a), (mux_truthy b), (mux_truthy k); cbn in *; lia. }
  apply (stable_sort_exact _ _ _ mux_order_total mux_order_trans) in S1. rewrite S1.
  symmetry. apply stable_sort_exact; [apply mux_order_total|apply mux_order_trans].
Qed.

Theorem sort_reversed_spec l out :
  out = sort_signals_by_start_bit_reversed l <->
  stable_sort_of (fun a b => start_bit a <=? start_bit b) l (rev out).
Proof.
  rewrite <- sort_start_bit_spec. unfold sort_signals_by_start_bit_reversed. split.
  - intros ->. apply rev_involutive.
  - intros <-. symmetry. apply rev_involutive.
Qed.

Theorem sorts_idempotent l :
  sort_signals_by_start_bit (sort_signals_by_start_bit l) = sort_signals_by_start_bit l /\
  sort_signals_by_name (sort_signals_by_name l) = sort_signals_by_name l /\
  sort_signals_by_start_bit_and_mux (sort_signals_by_start_bit_and_mux l) = sort_signals_by_start_bit_and_mux l.
Proof.
  split; [|split].
  - apply sorted_idem; intros *; lia.
  - apply sorted_idem; intros *; [apply string_leb_total|apply string_leb_trans].
  - assert (E : forall x, sort_signals_by_start_bit_and_mux x = sorted_py mux_order x).
    { intros x. apply (stable_sort_exact _ _ _ mux_order_total mux_order_trans). now apply sort_mux_spec. }
    rewrite !E. apply sorted_idem; [apply mux_order_total|apply mux_order_trans].
Qed.
