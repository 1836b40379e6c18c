(** CodecThms: Message.encode, decode and gather_signals meet CodecSpec. *)
From Coq Require Import Sorting.Permutation Sorting.Sorted Floats.SpecFloat.
From Verif Require Import Base PyNum Conversion Signal Bitstruct Formats Message LayoutSpec CodecSpec
     DictLemmas BitsLemmas FloatBits GenItems NodeProofs CheckSignal TreeProofs MsgProofs CheckComplete Construct.
Ltac Zify.zify_post_hook ::= Z.div_mod_to_equations.

(** ** Bridges from the model's helpers to the specification *)
Lemma label_number_spec ch l : sget (inverse_choices ch) l = label_number ch l.
Proof.
  unfold inverse_choices.
  assert (G : forall ch d, sget (fold_left (fun d kv => sset d (choice_str (snd kv)) (fst kv)) ch d) l =
              match label_number ch l with Some z => Some z | None => sget d l end).
  { clear ch. induction ch as [|[z c] ch IH]; intros d; [reflexivity|]. cbn [fold_left label_number fst snd].
    rewrite IH. destruct (label_number ch l); [reflexivity|]. rewrite (get_set _ sspec). now destruct (String.eqb (choice_str c) l). }
  rewrite G. now destruct (label_number ch l).
Qed.

Lemma built_named scale offset ch inv fl inner :
  built_conv (CNamed scale offset ch inv fl inner) -> inv = inverse_choices ch.
Proof.
  intros (s & o & c & f & H). unfold factory in H. apply bind_ok in H. destruct H as (i & _ & H).
  destruct c; [|discriminate]. now injection H as <- <- <- <- <-.
Qed.

Lemma choice_number_spec c l z : built_conv c ->
  (choice_to_number c l = Ok z <-> exists ch, conv_choices c = Some ch /\ label_number ch l = Some z).
Proof.
  intros B. destruct c as [nc|sc o ch inv fl inner]; cbn.
  - split; [discriminate|]. intros (ch & [=] & _).
  - apply built_named in B. subst inv. unfold sget_exn. rewrite label_number_spec. split.
    + destruct (label_number ch l) eqn:E; [|discriminate]. intros [= ->]. exists ch. auto.
    + intros (ch' & [= <-] & ->). reflexivity.
Qed.

Lemma find_signal_in all s : names_unique all -> In s all -> find_signal all (s_name s) = Some s.
Proof.
  unfold names_unique. intros U HI. unfold find_signal. induction all as [|x l IH]; [contradiction|].
  cbn in *. inversion U as [|? ? N U']; subst. destruct (String.eqb_spec (s_name x) (s_name s)) as [E|NE].
  - destruct HI as [->|HI]; [reflexivity|]. exfalso. apply N. rewrite E. now apply in_map.
  - destruct HI as [->|HI]; [contradiction|]. now apply IH.
Qed.

Lemma find_signal_some all k s : find_signal all k = Some s -> In s all /\ s_name s = k.
Proof.
  unfold find_signal. intros H. apply find_some in H. destruct H as [H E]. apply String.eqb_eq in E. auto.
Qed.

Lemma mux_number_spec all d s v :
  names_unique all -> In s all -> built_conv (s_conv s) -> sget d (s_name s) = Some v ->
  match get_mux_number all d (s_name s) with Ok z => Some z | Err _ => None end = selector s v.
Proof.
  intros U Hs B Hv. unfold get_mux_number, sget_exn. rewrite Hv. cbn [bind].
  assert (G : forall l, match (let* sg := get_signal all (s_name s) in
      catch (choice_to_number (s_conv sg) l) (fun e => exn_eqb e KeyError) (Err EncodeError)) with Ok z => Some z | Err _ => None end
      = match conv_choices (s_conv s) with Some ch => label_number ch l | None => None end).
  { intros l. rewrite get_signal_in by assumption. cbn [bind].
    destruct (choice_to_number (s_conv s) l) as [z|e] eqn:E.
    - apply (choice_number_spec _ _ _ B) in E. destruct E as (ch & -> & ->). reflexivity.
    - assert (NO : forall z, ~ exists ch, conv_choices (s_conv s) = Some ch /\ label_number ch l = Some z).
      { intros z H. apply (choice_number_spec _ _ _ B) in H. congruence. }
      unfold catch. destruct (exn_eqb e KeyError);
      (destruct (conv_choices (s_conv s)) as [ch|]; [|reflexivity];
      destruct (label_number ch l) as [z|] eqn:EL; [exfalso; apply (NO z); eauto|reflexivity]). }
  destruct v as [n|l|z l]; cbn [selector]; auto.
Qed.

Lemma mux_of_selectors all d s :
  names_unique all -> In s all -> built_conv (s_conv s) ->
  mux_of all d (s_name s) = selectors all d (s_name s).
Proof.
  intros U Hs B. unfold selectors. rewrite find_signal_in by assumption.
  destruct (sget d (s_name s)) as [v|] eqn:E.
  - now apply mux_number_spec.
  - unfold mux_of, get_mux_number, sget_exn. now rewrite E.
Qed.

Lemma active_in all mv s : active all mv s -> In s all.
Proof. now destruct 1. Qed.

Lemma active_ext all mv mv' s :
  names_unique all ->
  (forall t, active all mv t -> mv (s_name t) = mv' (s_name t)) -> active all mv s -> active all mv' s.
Proof.
  intros U H A. induction A as [s Hs HN|s m v ids Hs Hm A IH Em Ev Ei Hv].
  - now apply active_root.
  - apply active_child with m v ids; auto. rewrite <- H; assumption.
Qed.

Lemma active_ext_all all mv mv' s :
  names_unique all ->
  (forall t, In t all -> mv (s_name t) = mv' (s_name t)) -> active all mv s <-> active all mv' s.
Proof.
  intros U H. split; apply active_ext; auto; intros t At.
  - apply H. now apply active_in in At.
  - symmetry. apply H. now apply active_in in At.
Qed.

Lemma encode_signal_value_spec s v sc raw :
  built_conv (s_conv s) -> (encode_signal_value s v sc = Ok raw <-> raw_value s sc v raw).
Proof.
  intros B. destruct v as [n|l|z l]; cbn [encode_signal_value raw_value].
  - destruct sc; [reflexivity|]. destruct (conv_is_float (s_conv s)).
    + split; [now intros [= ->]|now intros ->].
    + split.
      * intros H. apply bind_ok in H. destruct H as (z & -> & [= <-]). eauto.
      * intros (z & -> & ->). reflexivity.
  - split.
    + intros H. apply bind_ok in H. destruct H as (z & Hz & [= <-]).
      apply (choice_number_spec _ _ _ B) in Hz. destruct Hz as (ch & H1 & H2). eauto.
    + intros (ch & z & H1 & H2 & ->). 
      rewrite (proj2 (choice_number_spec _ _ z B)); [reflexivity|eauto].
  - destruct (s_conv s) as [nc|scl o ch inv fl inner] eqn:EC; cbn [raw_to_scaled conv_choices].
    + split.
      * intros H. apply bind_ok in H. destruct H as (w & Hw & H). apply bind_ok in Hw.
        destruct Hw as (r & _ & [= <-]). discriminate.
      * intros (ch & c & [=] & _).
    + cbn [py_int bind]. destruct (zget ch z) as [c|] eqn:EZ; cbn [bind].
      * destruct (named_eq z l (choice_value c)) eqn:EN.
        -- split.
           ++ intros [= <-]. exists ch, c. auto.
           ++ intros (ch' & c' & [= <-] & _ & -> & _). reflexivity.
        -- split; [discriminate|]. intros (ch' & c' & [= <-] & E' & _ & EN'). congruence.
      * split.
        -- intros H. apply bind_ok in H. destruct H as (w & Hw & H). apply bind_ok in Hw.
           destruct Hw as (r & _ & [= <-]). discriminate.
        -- intros (ch' & c' & [= <-] & E' & _). congruence.
Qed.

Lemma sig_raw_spec d sc s raw :
  built_conv (s_conv s) ->
  (sig_raw d sc s = Ok raw <-> exists v, sget d (s_name s) = Some v /\ raw_value s sc v raw).
Proof.
  intros B. unfold sig_raw, sget_exn. destruct (sget d (s_name s)) as [v|]; cbn [bind].
  - rewrite encode_signal_value_spec by assumption. split; [eauto|]. now intros (v' & [= <-] & H).
  - split; [discriminate|]. now intros (v' & [=] & H).
Qed.

Lemma pack_field_spec s raw x :
  0 < s_length s ->
  pack_field (format_kind s) (s_length s) raw = Ok x ->
  exists y, raw_bits s raw y /\ forall k, 0 <= k < s_length s -> Z.testbit x k = Z.testbit y k.
Proof.
  intros Hl. unfold pack_field, format_kind, raw_bits, int_fits.
  destruct (conv_is_float (s_conv s)); [eauto|].
  destruct (s_signed s), raw as [z|f]; try discriminate.
  - destruct (_ && _) eqn:E; [|discriminate]. intros H; apply Ok_inj in H; subst x.
    exists z. repeat split; try lia. intros k Hk. now apply mod_pow2_testbit.
  - destruct (_ && _) eqn:E; [|discriminate]. intros H; apply Ok_inj in H; subst x.
    exists z. repeat split; try lia. 
Qed.

Lemma raw_bits_pack s raw y :
  raw_bits s raw y -> exists x, pack_field (format_kind s) (s_length s) raw = Ok x.
Proof.
  unfold pack_field, format_kind, raw_bits, int_fits.
  destruct (conv_is_float (s_conv s)); [eauto|].
  destruct (s_signed s), raw as [z|f]; try contradiction; intros [H _].
  - assert ((- 2 ^ (s_length s - 1) <=? z) && (z <? 2 ^ (s_length s - 1)) = true) as -> by lia. eauto.
  - assert ((0 <=? z) && (z <? 2 ^ s_length s) = true) as -> by lia. eauto.
Qed.

Lemma raw_bits_fun s raw x y : raw_bits s raw x -> raw_bits s raw y -> x = y.
Proof.
  unfold raw_bits. destruct (conv_is_float (s_conv s)); [congruence|].
  destruct raw; [|contradiction]. intuition congruence.
Qed.

Lemma raw_value_fun s sc v r r' : raw_value s sc v r -> raw_value s sc v r' -> r = r'.
Proof.
  destruct v; cbn [raw_value].
  - destruct sc; [congruence|]. destruct (conv_is_float (s_conv s)); [congruence|].
    intros (z & A & ->) (z' & A' & ->). congruence.
  - intros (ch & z & A & B & ->) (ch' & z' & A' & B' & ->). congruence.
  - intros (ch & c & A & B & -> & _) (ch' & c' & A' & B' & -> & _). reflexivity.
Qed.

Lemma children_known all m i : In i (children_ids all m) <-> known_id all m i.
Proof. apply children_ids_spec. Qed.

Lemma good_known all n w mv c :
  names_unique all -> wfc all n None None c ->
  (good w mv c <-> forall m, active all mv m -> w (s_name m) = true -> selector_known all mv m).
Proof.
  intros U W. rewrite (good_iff all n w mv None None c U W). split.
  - intros H m A Hw Em [i Hi]. destruct (H m) as (v & E & K); auto.
    + now apply (sel_list_active all n).
    + intros E. apply children_known in Hi. now rewrite E in Hi.
    + exists v. split; [assumption|]. now apply children_known.
  - intros H m Hm Em NE Hw. apply (sel_list_active all n) in Hm; [|assumption|assumption].
    destruct (H m Hm Hw Em) as (v & E & K).
    + destruct (children_ids all m) as [|i r] eqn:EC; [congruence|]. exists i. apply children_known. rewrite EC. now left.
    + exists v. split; [assumption|]. now apply children_known.
Qed.

(** ** Encoding *)
Lemma padding_pattern_spec u n p :
  0 <= n -> padding_pattern u n = Ok p ->
  0 <= p < 2 ^ (8 * n) /\ forall b, 0 <= b < 8 * n -> fbit n p b = Z.testbit u (b mod 8).
Proof.
  intros Hn H. unfold padding_pattern in H. destruct (_ || _) eqn:E; [|discriminate].
  apply Ok_inj in H. subst p. destruct (Z.eq_dec n 0) as [->|N0]; [split; [cbn; lia|intros; lia]|].
  assert (BO : bytes_ok (nrep n u)).
  { apply Forall_forall. intros x Hx. apply repeat_spec in Hx. subst. unfold byte_ok. lia. }
  assert (L : zlen (nrep n u) = n) by now apply nrep_len.
  assert (B := from_be_bound _ BO). rewrite L, pow256 in B by lia. split; [assumption|].
  intros b Hb. unfold fbit. assert (T := testbit_from_be _ b BO). rewrite L in T. rewrite T by assumption.
  unfold payload_bit. rewrite nth_nrep. destruct (Z.ltb_spec (Z.of_nat (Z.to_nat (b / 8))) n); [reflexivity|lia].
Qed.

Lemma padding_pattern_ok u n : 0 <= u < 256 -> exists p, padding_pattern u n = Ok p.
Proof. intros H. unfold padding_pattern. assert ((0 <=? u) && (u <? 256) = true) as -> by lia. cbn. eauto. Qed.

(** What a frame for the dictionary [d] must look like. *)
Record frame_for (m : message) (d : list (string * value)) (scaling padding : bool) (bytes : list Z) : Prop := {
  ff_len : zlen bytes = m_length m;
  ff_bytes : bytes_ok bytes;
  ff_known : forall s, active (m_signals m) (selectors (m_signals m) d) s ->
                       selector_known (m_signals m) (selectors (m_signals m) d) s;
  ff_bits : forall s, active (m_signals m) (selectors (m_signals m) d) s ->
     exists v raw x, sget d (s_name s) = Some v /\ raw_value s scaling v raw /\ raw_bits s raw x /\
       forall k, 0 <= k < s_length s -> payload_bit bytes (bit_pos s k) = Z.testbit x k;
  ff_rest : forall b, 0 <= b < 8 * m_length m ->
     (forall s, active (m_signals m) (selectors (m_signals m) d) s -> ~ occupies s b) ->
     payload_bit bytes b = if padding then Z.testbit (m_unused m) (b mod 8) else false
}.

Section WithMessage.
  Variable m : message.
  Hypothesis OK : msg_ok m.
  Hypothesis BC : forall s, In s (m_signals m) -> built_conv (s_conv s).
  Let all := m_signals m.
  Let n := m_length m.

  Lemma act_d d s : active all (mux_of all d) s <-> active all (selectors all d) s.
  Proof.
    apply active_ext_all; [apply OK|]. intros t Ht. apply mux_of_selectors; auto. apply OK.
  Qed.

  Lemma sel_d d s : In s (sel_list (mux_of all d) (m_codec m)) <-> active all (selectors all d) s.
  Proof.
    rewrite <- act_d. apply (sel_list_active all n); [apply OK|apply (mo_wfc _ OK)].
  Qed.

  Lemma good_d d : good (fun _ => true) (mux_of all d) (m_codec m) <->
    forall s, active all (selectors all d) s -> selector_known all (selectors all d) s.
  Proof.
    rewrite (good_known all n) by apply OK.
    assert (E : forall s, In s all -> mux_of all d (s_name s) = selectors all d (s_name s)).
    { intros s Hs. apply mux_of_selectors; auto. apply OK. }
    split.
    - intros H s A. apply act_d in A as A'. intros Em K. destruct (H s A' eq_refl Em K) as (v & V1 & V2).
      exists v. rewrite <- E; [auto|now apply active_in in A].
    - intros H s A _. apply act_d in A as A'. intros Em K. destruct (H s A' Em K) as (v & V1 & V2).
      exists v. rewrite E; [auto|now apply active_in in A].
  Qed.

  Lemma sel_in d s : In s (sel_list (mux_of all d) (m_codec m)) -> In s all.
  Proof. intros H. apply sel_d in H. now apply active_in in H. Qed.

  Theorem encode_frame d sc pad strict bytes :
    encode m d sc pad strict = Ok bytes -> frame_for m d sc pad bytes.
  Proof.
    intros H. unfold encode in H. apply bind_ok in H. destruct H as ([] & _ & H).
    apply bind_ok in H. destruct H as ([E M] & HE & H).
    apply bind_ok in H. destruct H as (E' & HP & H).
    assert (Hn : 0 <= n) by apply OK.
    destruct (encode_node_spec all n d sc None None (m_codec m) Hn (mo_names _ OK) (mo_wfc _ OK) (mo_cok _ OK) E M HE) as [EI G].
    destruct EI as [A1 A2 A3 A4 A5].
    assert (PAD : 0 <= E' < 2 ^ (8 * n) /\ forall b, 0 <= b < 8 * n ->
               fbit n E' b = fbit n E b || (pad && fbit n M b && Z.testbit (m_unused m) (b mod 8))).
    { destruct pad.
      - apply bind_ok in HP. destruct HP as (p & HPP & HP). apply Ok_inj in HP. subst E'.
        destruct (padding_pattern_spec _ _ _ Hn HPP) as [P1 P2]. split.
        + apply lor_bound; auto; [lia|]. apply land_bound; auto; lia.
        + intros b Hb. rewrite fbit_lor, fbit_land. now rewrite (P2 b Hb).
      - apply Ok_inj in HP. subst E'. split; [assumption|]. intros. cbn. now rewrite orb_false_r. }
    destruct PAD as [B' T'].
    unfold to_bytes_be in H. fold n in H.
    destruct (_ && _) eqn:EB in H; [|discriminate]. apply Ok_inj in H. subst bytes.
    assert (PW : 0 <= E' < 256 ^ Z.of_nat (Z.to_nat n)) by (rewrite Z2Nat.id, pow256 by lia; assumption).
    assert (PB : forall b, 0 <= b < 8 * n -> payload_bit (to_be (Z.to_nat n) E') b = fbit n E' b).
    { intros b Hb. rewrite payload_bit_to_be by (auto; lia). unfold fbit. now rewrite Z2Nat.id by lia. }
    assert (ACT : forall s, active all (selectors all d) s -> In s (sel_list (mux_of all d) (m_codec m))) by (intros; now apply sel_d).
    split.
    - unfold zlen. rewrite to_be_length. fold n. lia.
    - apply to_be_ok.
    - apply (good_d d). exact G.
    - intros s A. apply ACT in A as HS. assert (HA : In s all) by now apply sel_in in HS.
      destruct (A3 s HS) as (x & raw & R1 & R2).
      apply sig_raw_spec in R1; [|auto]. destruct R1 as (v & V1 & V2).
      destruct (pack_field_spec s raw x (mo_pos _ OK s HA) R2) as (y & Y1 & Y2).
      exists v, raw, y. split; [assumption|]. split; [assumption|]. split; [assumption|].
      intros k Hk. destruct (mo_layout _ OK _ _ A) as [FIT DIS].
      assert (RB : 0 <= bit_pos s k < 8 * n) by (apply FIT; now apply occupies_pos).
      rewrite PB, T' by assumption.
      assert (fbit n M (bit_pos s k) = false) as ->.
      { destruct (fbit n M (bit_pos s k)) eqn:EM; [|reflexivity].
        exfalso. apply (proj1 (A5 _ RB) EM s HS). now apply occupies_pos. }
      rewrite andb_false_r. cbn. rewrite orb_false_r.
      apply eq_true_iff_eq. rewrite A4 by assumption. rewrite <- Y2 by assumption. split.
      + intros (t & k' & x' & Ht & Hk' & Ek & (raw' & D1 & D2) & T).
        assert (t = s).
        { destruct (string_dec (s_name t) (s_name s)) as [EN|N];
            [apply (NoDup_map_inj s_name all); auto; [apply OK|now apply sel_in in Ht]|].
          assert (N' : s <> t) by congruence. exfalso. apply (DIS t) with (bit_pos s k); auto.
          - now apply sel_d.
          - now apply occupies_pos.
          - exists k'. auto. }
        subst t. assert (k' = k) by (eapply bit_pos_inj; eauto). subst k'.
        assert (sig_raw d sc s = Ok raw) by (apply sig_raw_spec; eauto). congruence.
      + intros T. exists s, k, x. repeat split; auto; try lia. exists raw. split; [|assumption].
        apply sig_raw_spec; eauto.
    - intros b Hb HN. rewrite PB, T' by assumption.
      assert (fbit n M b = true) as ->.
      { apply A5; [assumption|]. intros s Hs. apply HN. now apply sel_d. }
      assert (fbit n E b = false) as ->.
      { destruct (fbit n E b) eqn:EE; [|reflexivity]. apply A4 in EE; [|assumption].
        destruct EE as (s & k & x & Hs & Hk & Ek & _). exfalso. apply (HN s); [now apply sel_d|]. exists k. auto. }
      destruct pad; reflexivity.
  Qed.

  Theorem encode_complete d sc (pad : bool) :
    (pad = true -> 0 <= m_unused m < 256) ->
    (forall s, active all (selectors all d) s -> selector_known all (selectors all d) s) ->
    (forall s, active all (selectors all d) s ->
       exists v raw x, sget d (s_name s) = Some v /\ raw_value s sc v raw /\ raw_bits s raw x) ->
    exists bytes, encode m d sc pad false = Ok bytes.
  Proof.
    intros HP HK HV. unfold encode. cbn [bind].
    assert (Hn : 0 <= n) by apply OK.
    destruct (encode_node_ok all n d sc None None (m_codec m) Hn (mo_names _ OK) (mo_wfc _ OK) (mo_cok _ OK)) as (E & M & HE).
    - now apply good_d.
    - intros s Hs. apply sel_in in Hs as HA. apply sel_d in Hs. destruct (HV s Hs) as (v & raw & x & V1 & V2 & V3).
      destruct (raw_bits_pack _ _ _ V3) as [y Hy]. exists y, raw. split; [|assumption].
      apply sig_raw_spec; eauto.
    - fold all. rewrite HE. cbn [bind].
      destruct (encode_node_spec all n d sc None None (m_codec m) Hn (mo_names _ OK) (mo_wfc _ OK) (mo_cok _ OK) E M HE) as [[A1 A2 _ _ _] _].
      assert (FIN : forall E', 0 <= E' < 2 ^ (8 * n) -> exists bytes, to_bytes_be (Z.to_nat n) E' = Ok bytes).
      { intros E' B. unfold to_bytes_be. rewrite Z2Nat.id, pow256 by lia.
        assert ((0 <=? E') && (E' <? 2 ^ (8 * n)) = true) as -> by lia. eauto. }
      destruct pad.
      + destruct (padding_pattern_ok (m_unused m) (m_length m) (HP eq_refl)) as [p Hp]. rewrite Hp. cbn [bind].
        apply FIN. destruct (padding_pattern_spec _ _ _ Hn Hp) as [P1 _].
        apply lor_bound; auto; [lia|]. apply land_bound; auto; lia.
      + cbn [bind]. now apply FIN.
  Qed.
End WithMessage.

(** The frame is determined by the specification. *)
Lemma frame_for_unique m d sc pad b1 b2 :
  msg_ok m -> frame_for m d sc pad b1 -> frame_for m d sc pad b2 -> b1 = b2.
Proof.
  intros OK [L1 B1 _ F1 R1] [L2 B2 _ F2 R2].
  apply payload_ext; auto.
  { unfold zlen in *. lia. }
  rewrite L1. intros b Hb.
  set (all := m_signals m) in *. set (mv := selectors all d) in *.
  assert (FIN : forall l, (forall s, active all mv s -> In s l -> occupies s b -> payload_bit b1 b = payload_bit b2 b) /\
                 ((exists s, In s l /\ active all mv s /\ occupies s b) \/ True)).
  { intros l. split; [|auto]. intros s A _ (k & Hk & <-).
    destruct (F1 s A) as (v & raw & x & V1 & V2 & V3 & V4).
    destruct (F2 s A) as (v' & raw' & x' & V1' & V2' & V3' & V4').
    assert (v' = v) by congruence. subst v'.
    assert (raw' = raw) by (eapply raw_value_fun; eauto). subst raw'.
    assert (x' = x) by (eapply raw_bits_fun; eauto). subst x'.
    now rewrite V4, V4'. }
  assert (ACT := sel_list_active all (m_length m) mv (m_codec m) (mo_names _ OK) (mo_wfc _ OK)).
  destruct (existsb (fun s => occb s b) (sel_list mv (m_codec m))) eqn:EX.
  - apply existsb_exists in EX. destruct EX as (s & Hs & O). apply occb_iff in O. apply ACT in Hs.
    destruct (FIN [s]) as [F _]. apply (F s); auto. now left.
  - assert (HN : forall s, active all mv s -> ~ occupies s b).
    { intros s A O. apply ACT in A. apply occb_iff in O.
      assert (existsb (fun s => occb s b) (sel_list mv (m_codec m)) = true); [|congruence].
      apply existsb_exists. eauto. }
    rewrite R1, R2 by assumption. reflexivity.
Qed.

(** ** Decoding *)

(** [out] is the documented decoding of [data] (of at least the bytes that are needed). *)
Record decoded (m : message) (data : list Z) (decode_choices scaling : bool) (out : list (string * value)) : Prop := {
  dd_keys : NoDup (map fst out);
  dd_vals : forall s, active (m_signals m) (selectors (m_signals m) out) s -> sig_within (zlen data) s ->
     exists v, sget out (s_name s) = Some v /\ shown_value s decode_choices scaling (read_raw data s) v;
  dd_only : forall k v, sget out k = Some v ->
     exists s, active (m_signals m) (selectors (m_signals m) out) s /\ sig_within (zlen data) s /\ s_name s = k;
  dd_known : forall s, active (m_signals m) (selectors (m_signals m) out) s -> sig_within (zlen data) s ->
     selector_known (m_signals m) (selectors (m_signals m) out) s
}.

Lemma active_ext2 all mv mv' s :
  (forall t, active all mv t -> mv (s_name t) = mv' (s_name t)) -> active all mv s <-> active all mv' s.
Proof.
  intros H. split.
  - intros A. induction A as [s Hs HN|s m v ids Hs Hm A IH Em Ev Ei Hv].
    + now apply active_root.
    + apply active_child with m v ids; auto. rewrite <- H; assumption.
  - intros A. induction A as [s Hs HN|s m v ids Hs Hm A IH Em Ev Ei Hv].
    + now apply active_root.
    + apply active_child with m v ids; auto. rewrite H; assumption.
Qed.

Lemma decode_signal_value_spec s raw dc sc v :
  (dc = true -> sc = true -> conv_choices (s_conv s) <> None -> exists z, raw = NInt z) ->
  (decode_signal_value s raw dc sc = Ok v <-> shown_value s dc sc raw v).
Proof.
  intros HI. unfold decode_signal_value, shown_value. destruct sc.
  - destruct (s_conv s) as [nc|scl o ch inv fl inner] eqn:EC; cbn [conv_choices raw_to_scaled].
    + reflexivity.
    + destruct dc; cbn [bind].
      * destruct HI as [z ->]; auto; [discriminate|]. cbn [py_int bind choices_lookup].
        destruct (zget ch z) as [c|].
        -- split; [now intros [= <-]|now intros ->].
        -- reflexivity.
      * reflexivity.
  - destruct dc.
    + destruct (conv_choices (s_conv s)) as [ch|].
      * destruct (choices_lookup ch raw); (split; [now intros [= <-]|now intros ->]).
      * split; [now intros [= <-]|now intros ->].
    + destruct (conv_choices (s_conv s)); (split; [now intros [= <-]|now intros ->]).
Qed.

(** Float signals have no value table (their scaled decoding looks up the truncated value). *)
Definition plain_tables (m : message) : Prop :=
  forall s, In s (m_signals m) -> conv_is_float (s_conv s) = true -> conv_choices (s_conv s) = None.

Section DecodeMessage.
  Variable m : message.
  Hypothesis OK : msg_ok m.
  Hypothesis BC : forall s, In s (m_signals m) -> built_conv (s_conv s).
  Variables (dc sc : bool).
  Hypothesis PT : dc = true -> sc = true -> plain_tables m.
  Let all := m_signals m.
  Let n := m_length m.

  Lemma dsv data s v : In s all -> decode_signal_value s (read_raw data s) dc sc = Ok v <->
                                   shown_value s dc sc (read_raw data s) v.
  Proof.
    intros Hs. apply decode_signal_value_spec. intros E1 E2 NE. unfold read_raw.
    destruct (conv_is_float (s_conv s)) eqn:EF; [|eauto]. exfalso. apply NE. now apply (PT E1 E2).
  Qed.

  Section Data.
    Variables (data pd : list Z) (at_ ae : bool).
    Hypothesis BO : bytes_ok data.
    Hypothesis FD : fit_data data n at_ ae = Ok pd.
    Let nb := zlen data.
    Let mv := mux_dec all dc sc pd nb.

    Lemma read_within mv0 s : active all mv0 s -> within nb s = true -> read_raw pd s = read_raw data s.
    Proof.
      intros A W. assert (HA := active_in _ _ _ A). destruct (mo_layout _ OK _ _ A) as [FIT _].
      assert (Hl := mo_pos _ OK s HA). assert (W2 := FIT).
      apply (within_iff n nb s Hl FIT) in W.
      apply read_raw_ext; [assumption|]. intros b Ob.
      destruct (fit_data_ok data n at_ ae pd (mo_len _ OK) BO FD) as (_ & _ & _ & _ & HB).
      apply HB. assert (B1 := FIT b Ob). assert (B2 := W b Ob). unfold nb in B2. unfold n in *. lia.
    Qed.

    Lemma within_active mv0 s : active all mv0 s -> within nb s = true <-> sig_within nb s.
    Proof.
      intros A. assert (HA := active_in _ _ _ A). destruct (mo_layout _ OK _ _ A) as [FIT _].
      apply (within_iff n); [now apply OK|assumption].
    Qed.

    Lemma dval_active mv0 s v : active all mv0 s ->
      dval all dc sc pd nb (s_name s) = Some v <-> (sig_within nb s /\ shown_value s dc sc (read_raw data s) v).
    Proof.
      intros A. assert (HA := active_in _ _ _ A). unfold dval.
      rewrite get_signal_in by (auto; apply OK). rewrite <- (within_active _ _ A).
      destruct (within nb s) eqn:W.
      - rewrite (read_within _ _ A W). rewrite <- dsv by assumption.
        destruct (decode_signal_value s (read_raw data s) dc sc) as [w|]; split.
        + intros [= <-]. auto.
        + now intros [_ [= <-]].
        + discriminate.
        + intros [_ [=]].
      - split; [discriminate|intros [[=] _]].
    Qed.

    Lemma mux_dec_active mv0 s : active all mv0 s ->
      mv (s_name s) = match dval all dc sc pd nb (s_name s) with Some v => selector s v | None => None end.
    Proof.
      intros A. assert (HA := active_in _ _ _ A). unfold mv, mux_dec.
      destruct (dval all dc sc pd nb (s_name s)) as [v|]; [|reflexivity].
      apply (mux_number_spec all [(s_name s, v)] s v); auto; [apply OK|].
      cbn. now rewrite String.eqb_refl.
    Qed.

    Let w := fun k => match get_signal all k with Ok s => within nb s | Err _ => true end.
    Lemma w_in s : In s all -> w (s_name s) = within nb s.
    Proof. intros Hs. unfold w. rewrite get_signal_in; auto. apply OK. Qed.

    Lemma decode_sound out : decode m data dc sc at_ ae = Ok out -> decoded m data dc sc out.
    Proof.
      intros H. unfold decode in H.
      destruct (decode_node_spec all n data dc sc at_ ae pd None None (m_codec m) (mo_len _ OK) (mo_names _ OK)
                  (mo_wfc _ OK) (mo_cok _ OK) BO FD) as [S1 _].
      destruct (S1 out H) as ([ND HR] & HV & G). fold nb in HR, HV, G. fold mv in HR, HV, G.
      assert (ACT := sel_list_active all n mv (m_codec m) (mo_names _ OK) (mo_wfc _ OK)).
      assert (GET : forall s, active all mv s -> sget out (s_name s) = dval all dc sc pd nb (s_name s)).
      { intros s A. apply (HR (s_name s)). exists s. split; [now apply ACT|reflexivity]. }
      assert (EQ : forall t, active all mv t -> mv (s_name t) = selectors all out (s_name t)).
      { intros t A. rewrite (mux_dec_active _ _ A), <- (GET t A). unfold selectors.
        rewrite find_signal_in; [|apply OK|now apply active_in in A]. reflexivity. }
      assert (AEQ : forall s, active all mv s <-> active all (selectors all out) s).
      { intros s. now apply active_ext2. }
      split.
      - assumption.
      - intros s A W. apply AEQ in A as A'. 
        destruct (HV s) as [v Hv]; [now apply ACT|now apply (within_active _ _ A')|].
        exists v. assert (Hw : within nb s = true) by now apply (within_active _ _ A').
        rewrite (read_within _ _ A' Hw) in Hv. apply dsv in Hv; [|now apply active_in in A].
        split; [|assumption]. rewrite GET by assumption. apply (dval_active _ _ _ A'). auto.
      - intros k v Hk. destruct (HR k) as [_ HR2].
        destruct (name_in_list_dec (sel_list mv (m_codec m)) k) as [(s & Hs & <-)|NI].
        + apply ACT in Hs. rewrite GET in Hk by assumption. apply (dval_active _ _ _ Hs) in Hk.
          exists s. split; [now apply AEQ|]. split; [apply Hk|reflexivity].
        + rewrite HR2 in Hk; [discriminate|]. intros s Hs E. apply NI. exists s. auto.
      - rewrite (good_known all n) in G by apply OK. intros s A W. apply AEQ in A as A'.
        assert (Hw : w (s_name s) = true).
        { rewrite w_in by now apply active_in in A. now apply (within_active _ _ A'). }
        intros Em K. destruct (G s A' Hw Em K) as (v & V1 & V2).
        exists v. split; [|assumption]. now rewrite <- EQ.
    Qed.

    Lemma decode_total out : decoded m data dc sc out -> exists out', decode m data dc sc at_ ae = Ok out'.
    Proof.
      intros [D1 D2 D3 D4]. unfold decode.
      destruct (decode_node_spec all n data dc sc at_ ae pd None None (m_codec m) (mo_len _ OK) (mo_names _ OK)
                  (mo_wfc _ OK) (mo_cok _ OK) BO FD) as [_ S2].
      assert (ACT := sel_list_active all n mv (m_codec m) (mo_names _ OK) (mo_wfc _ OK)).
      fold all in D2, D3, D4.
      assert (EQ : forall t, active all (selectors all out) t -> selectors all out (s_name t) = mv (s_name t)).
      { intros t A. rewrite (mux_dec_active _ _ A). unfold selectors.
        rewrite find_signal_in; [|apply OK|now apply active_in in A].
        destruct (sget out (s_name t)) as [v|] eqn:ES.
        - destruct (D3 _ _ ES) as (t' & A' & W' & E').
          assert (t' = t). { apply (NoDup_map_inj s_name all); [apply OK|now apply active_in in A'|now apply active_in in A|assumption]. }
          subst t'. destruct (D2 t A W') as (v' & V1 & V2). assert (v' = v) by congruence. subst v'.
          assert (dval all dc sc pd nb (s_name t) = Some v) as -> by (apply (dval_active _ _ _ A); auto). reflexivity.
        - destruct (dval all dc sc pd nb (s_name t)) as [v|] eqn:ED; [|reflexivity].
          apply (dval_active _ _ _ A) in ED. destruct ED as [W _]. destruct (D2 t A W) as (v' & V1 & _). congruence. }
      assert (AEQ : forall s, active all (selectors all out) s <-> active all mv s).
      { intros s. now apply active_ext2. }
      apply S2; fold nb; fold mv.
      - apply (good_known all n); [apply OK|apply (mo_wfc _ OK)|]. intros s A Hw Em K. 
        apply AEQ in A as A'. destruct (D4 s A') as (v & V1 & V2); auto.
        + apply (within_active _ _ A). rewrite <- w_in; [exact Hw|now apply active_in in A].
        + exists v. split; [|assumption]. now rewrite <- EQ.
      - intros s Hs Hw. apply ACT in Hs. apply AEQ in Hs as A'.
        destruct (D2 s A') as (v & V1 & V2); [now apply (within_active _ _ Hs)|].
        exists v. rewrite (read_within _ _ Hs Hw). apply dsv; [now apply active_in in Hs|assumption].
    Qed.
  End Data.

  Theorem decode_spec data at_ ae out :
    bytes_ok data -> decode m data dc sc at_ ae = Ok out ->
    decoded m data dc sc out /\ (zlen data < n -> at_ = true) /\ (n < zlen data -> ae = true).
  Proof.
    intros BO H. destruct (fit_data data n at_ ae) as [pd|e] eqn:FD.
    - split; [eapply decode_sound; eauto|]. apply fit_data_iff; [apply OK|eauto].
    - exfalso. unfold decode in H. assert (COK := mo_cok _ OK). destruct (m_codec m) as [sigs fm muxes].
      inversion COK; subst. rewrite decode_node_eq, decode_data_eq in H by assumption. fold n in H. rewrite FD in H. discriminate.
  Qed.

  Theorem decode_complete data at_ ae out :
    bytes_ok data -> (zlen data < n -> at_ = true) -> (n < zlen data -> ae = true) ->
    decoded m data dc sc out -> exists out', decode m data dc sc at_ ae = Ok out'.
  Proof.
    intros BO H1 H2 D. destruct (proj2 (fit_data_iff data n at_ ae (mo_len _ OK)) (conj H1 H2)) as [pd FD].
    eapply decode_total; eauto.
  Qed.

  Theorem decode_wrong_size data at_ ae :
    bytes_ok data -> (zlen data < n /\ at_ = false) \/ (n < zlen data /\ ae = false) ->
    decode m data dc sc at_ ae = Err DecodeError.
  Proof.
    intros BO H. destruct (fit_data data n at_ ae) as [pd|e] eqn:FD.
    - exfalso. assert (E : exists d, fit_data data n at_ ae = Ok d) by eauto.
      apply fit_data_iff in E; [|apply OK]. destruct E as [E1 E2]. intuition congruence.
    - apply fit_data_err in FD as E. subst e.
      unfold decode. assert (COK := mo_cok _ OK). destruct (m_codec m) as [sigs fm muxes].
      inversion COK; subst. rewrite decode_node_eq, decode_data_eq by assumption. fold n. now rewrite FD.
  Qed.
End DecodeMessage.

Lemma shown_value_fun s dc sc raw v v' : shown_value s dc sc raw v -> shown_value s dc sc raw v' -> v = v'.
Proof.
  unfold shown_value. destruct (conv_choices (s_conv s)) as [ch|].
  - destruct dc; [destruct (choices_lookup ch raw); [congruence|]|]; destruct sc; congruence.
  - destruct sc; congruence.
Qed.

(** The decoded dictionary is determined by the specification. *)
Lemma decoded_unique m data dc sc o1 o2 :
  msg_ok m -> decoded m data dc sc o1 -> decoded m data dc sc o2 -> forall k, sget o1 k = sget o2 k.
Proof.
  intros OK [N1 V1 O1 _] [N2 V2 O2 _]. set (all := m_signals m) in *.
  assert (KEY : forall o o', (forall s, active all (selectors all o) s -> sig_within (zlen data) s ->
       exists v, sget o (s_name s) = Some v /\ shown_value s dc sc (read_raw data s) v) ->
     (forall k v, sget o k = Some v -> exists s, active all (selectors all o) s /\ sig_within (zlen data) s /\ s_name s = k) ->
     (forall s, active all (selectors all o') s -> sig_within (zlen data) s ->
       exists v, sget o' (s_name s) = Some v /\ shown_value s dc sc (read_raw data s) v) ->
     forall s, active all (selectors all o) s -> active all (selectors all o') s).
  { intros o o' V O V' s A. induction A as [s Hs HN|s m0 v ids Hs Hm A IH Em Ev Ei Hv].
    - now apply active_root.
    - apply active_child with m0 v ids; auto. unfold selectors in Ev |- *.
      assert (Hm0 := active_in _ _ _ A). rewrite find_signal_in in * by (auto; apply OK).
      destruct (sget o (s_name m0)) as [u|] eqn:EO; [|discriminate].
      destruct (O _ _ EO) as (t & At & Wt & Et).
      assert (t = m0) by (apply (NoDup_map_inj s_name all); auto; [apply OK|now apply active_in in At]). subst t.
      destruct (V m0 A Wt) as (u1 & U1 & U2). destruct (V' m0 IH Wt) as (u2 & U3 & U4).
      assert (u1 = u) by congruence. subst u1. assert (u2 = u) by (eapply shown_value_fun; eauto). subst u2.
      now rewrite U3. }
  assert (K12 := KEY o1 o2 V1 O1 V2). assert (K21 := KEY o2 o1 V2 O2 V1).
  assert (DIR : forall o o', (forall s, active all (selectors all o) s -> sig_within (zlen data) s ->
       exists v, sget o (s_name s) = Some v /\ shown_value s dc sc (read_raw data s) v) ->
     (forall k v, sget o k = Some v -> exists s, active all (selectors all o) s /\ sig_within (zlen data) s /\ s_name s = k) ->
     (forall s, active all (selectors all o') s -> sig_within (zlen data) s ->
       exists v, sget o' (s_name s) = Some v /\ shown_value s dc sc (read_raw data s) v) ->
     (forall s, active all (selectors all o) s -> active all (selectors all o') s) ->
     forall k v, sget o k = Some v -> sget o' k = Some v).
  { intros o o' V O V' K k v H. destruct (O _ _ H) as (s & A & W & <-).
    destruct (V s A W) as (u & U1 & U2). destruct (V' s (K s A) W) as (u' & U3 & U4).
    assert (u = v) by congruence. subst u. rewrite U3. f_equal. eapply shown_value_fun; eauto. }
  intros k. destruct (sget o1 k) as [v|] eqn:E1.
  - symmetry. eapply (DIR o1 o2); eauto.
  - destruct (sget o2 k) as [v|] eqn:E2; [|reflexivity]. rewrite (DIR o2 o1 V2 O2 V1 K21 k v E2) in E1. discriminate.
Qed.

(** ** gather_signals *)
Theorem gather_spec m d out :
  msg_ok m -> (forall s, In s (m_signals m) -> built_conv (s_conv s)) ->
  gather_signals m d = Ok out ->
  (forall s, active (m_signals m) (selectors (m_signals m) d) s -> selector_known (m_signals m) (selectors (m_signals m) d) s) /\
  NoDup (map fst out) /\
  (forall k v, sget out k = Some v <->
     sget d k = Some v /\ exists s, active (m_signals m) (selectors (m_signals m) d) s /\ s_name s = k) /\
  (forall s, active (m_signals m) (selectors (m_signals m) d) s -> exists v, sget d (s_name s) = Some v).
Proof.
  intros OK BC H. unfold gather_signals in H.
  destruct (gather_node_spec (m_signals m) (m_length m) d None None (m_codec m) (mo_names _ OK) (mo_wfc _ OK) out H) as ([ND HR] & HV & G).
  split; [now apply good_d|]. split; [assumption|]. split.
  - intros k v. destruct (HR k) as [H1 H2].
    destruct (name_in_list_dec (sel_list (mux_of (m_signals m) d) (m_codec m)) k) as [(s & Hs & <-)|NI].
    + rewrite H1 by (exists s; auto). split; [|tauto]. intros E. split; [assumption|]. exists s.
      split; [now apply sel_d|reflexivity].
    + rewrite H2 by (intros s Hs E; apply NI; exists s; auto). split; [discriminate|].
      intros [_ (s & A & <-)]. exfalso. apply NI. exists s. split; [|reflexivity]. now apply sel_d.
  - intros s A. apply HV. now apply sel_d.
Qed.

Theorem gather_complete m d :
  msg_ok m -> (forall s, In s (m_signals m) -> built_conv (s_conv s)) ->
  (forall s, active (m_signals m) (selectors (m_signals m) d) s -> selector_known (m_signals m) (selectors (m_signals m) d) s) ->
  (forall s, active (m_signals m) (selectors (m_signals m) d) s -> exists v, sget d (s_name s) = Some v) ->
  exists out, gather_signals m d = Ok out.
Proof.
  intros OK BC HK HV. unfold gather_signals.
  apply (gather_node_ok (m_signals m) (m_length m) d None None (m_codec m) (mo_names _ OK) (mo_wfc _ OK)).
  - now apply good_d.
  - intros s Hs. apply HV. now apply sel_d in Hs.
Qed.
