(** MsgProofs: encoding, decoding and gathering over the whole codec tree, stated over the
    signals selected by the multiplexer values. *)
From Coq Require Import Sorting.Permutation Sorting.Sorted.
From Verif Require Import Base PyNum Conversion Signal Bitstruct Formats Message LayoutSpec
     DictLemmas BitsLemmas GenItems NodeProofs CheckSignal TreeProofs.
Ltac Zify.zify_post_hook ::= Z.div_mod_to_equations.

Lemma foldM_map {A B C} (g : B -> result C) (h : A -> C -> A) l : forall a,
  foldM (fun a x => let* y := g x in Ok (h a y)) l a =
  let* ys := mapM g l in Ok (fold_left h ys a).
Proof.
  induction l as [|x l IH]; intros a; [reflexivity|]. cbn [foldM mapM].
  destruct (g x); cbn [bind]; [|reflexivity]. rewrite IH. destruct (mapM g l); reflexivity.
Qed.

Lemma bind_assoc {A B C} (x : result A) (f : A -> result B) (g : B -> result C) :
  (let* y := (let* z := x in f z) in g y) = let* z := x in let* y := f z in g y.
Proof. destruct x; reflexivity. Qed.

Lemma foldM_ext {A B} (f g : A -> B -> result A) l : (forall a x, f a x = g a x) ->
  forall a, foldM f l a = foldM g l a.
Proof. intros H. induction l as [|x l IH]; intros a; [reflexivity|]. cbn. rewrite H. destruct (g a x); cbn; auto. Qed.

(** Membership through the list of multiplexers instead of the list of signals. *)
Lemma sel_list_muxes all n p mid sigs fm muxes mv :
  names_unique all -> wfc all n p mid (Codec sigs fm muxes) ->
  forall s, In s (sel_list mv (Codec sigs fm muxes)) <->
    In s sigs \/ exists name bs v c', In (name, bs) muxes /\ mv name = Some v /\ zget bs v = Some c' /\
                                      In s (sel_list mv c').
Proof.
  intros U W s. inversion W as [? ? ? ? HF ND SH CO SUB]; subst. rewrite sel_list_in. split.
  - intros [|(m & bs & v & c' & Hm & E1 & E2 & E3 & HI)]; [auto|]. right.
    apply (get_in _ sspec) in E1. eauto 10.
  - intros [|(name & bs & v & c' & HI & E2 & E3 & Hs)]; [auto|]. right.
    destruct (SH _ _ HI) as (m & Hm & <- & _). exists m, bs, v, c'. repeat split; auto.
    now apply (in_get _ sspec).
Qed.

(** Every multiplexer that is reached (and in [w]) selects an existing branch. *)
Inductive good (w : string -> bool) (mv : string -> option Z) : codec -> Prop :=
| good_intro sigs fm muxes :
    (forall name bs, In (name, bs) muxes -> w name = true -> exists v, mv name = Some v /\ In v (map fst bs)) ->
    (forall name bs v c', In (name, bs) muxes -> mv name = Some v -> zget bs v = Some c' -> good w mv c') ->
    good w mv (Codec sigs fm muxes).

Definition selector_ok (all : list signal) (mv : string -> option Z) (m : signal) : Prop :=
  exists v, mv (s_name m) = Some v /\ In v (children_ids all m).

Lemma good_iff all n w mv p mid c :
  names_unique all -> wfc all n p mid c ->
  (good w mv c <-> forall m, In m (sel_list mv c) -> s_is_mux m = true -> children_ids all m <> [] ->
                             w (s_name m) = true -> selector_ok all mv m).
Proof.
  intros U W. induction W as [p mid fm muxes HF ND SH CO SUB IH].
  assert (W' : wfc all n p mid (Codec (filter (belongs p mid) all) fm muxes)) by (constructor; auto).
  assert (UN : forall m name bs, In m (filter (belongs p mid) all) -> In (name, bs) muxes -> s_name m = name ->
                   map fst bs = children_ids all m).
  { intros m name bs Hm HI E. destruct (SH _ _ HI) as (m' & Hm' & E' & _ & K & _).
    apply filter_In in Hm, Hm'. assert (m' = m) by (apply (NoDup_map_inj s_name all); [exact U|tauto|tauto|congruence]).
    now subst. }
  split.
  - intros G m Hm Em NE Hw. inversion G as [? ? ? G1 G2]; subst.
    apply (sel_list_muxes _ _ _ _ _ _ _ _ U W') in Hm.
    destruct Hm as [Hm|(name & bs & v & c' & HI & E1 & E2 & Hs)].
    + destruct (CO m Hm Em NE) as [bs HI]. destruct (G1 _ _ HI Hw) as (v & E1 & E2).
      exists v. split; [assumption|]. now rewrite <- (UN m _ bs Hm HI eq_refl).
    + assert (E3 := E2). apply (get_in _ zspec) in E3. destruct (IH _ _ _ _ HI E3) as [IH1 _].
      apply IH1; eauto.
  - intros H. constructor.
    + intros name bs HI Hw. destruct (SH _ _ HI) as (m & Hm & En & Em & K & NE). subst name.
      destruct (H m) as (v & E1 & E2); auto.
      * apply (sel_list_muxes _ _ _ _ _ _ _ _ U W'). now left.
      * exists v. split; [assumption|]. now rewrite K.
    + intros name bs v c' HI E1 E2. assert (E3 := E2). apply (get_in _ zspec) in E3.
      destruct (IH _ _ _ _ HI E3) as [_ IH2]. apply IH2.
      intros m Hm Em NE Hw. apply H; auto.
      apply (sel_list_muxes _ _ _ _ _ _ _ _ U W'). right. eauto 10.
Qed.

(** ** Encoding *)
Definition mux_of (all : list signal) (d : list (string * value)) (name : string) : option Z :=
  match get_mux_number all d name with Ok v => Some v | Err _ => None end.

(** The digits that encoding writes for a signal. *)
Definition sig_digits (d : list (string * value)) (sc : bool) (s : signal) (x : Z) : Prop :=
  exists raw, sig_raw d sc s = Ok raw /\ pack_field (format_kind s) (s_length s) raw = Ok x.

Lemma sig_digits_fun d sc s x y : sig_digits d sc s x -> sig_digits d sc s y -> x = y.
Proof. intros (r & A & B) (r' & A' & B'). congruence. Qed.

Record enc_inv (n : Z) (d : list (string * value)) (sc : bool) (P : signal -> Prop) (E M : Z) : Prop := {
  ei_E : 0 <= E < 2 ^ (8 * n);
  ei_M : 0 <= M < 2 ^ (8 * n);
  ei_ex : forall s, P s -> exists x, sig_digits d sc s x;
  ei_bits : forall b, 0 <= b < 8 * n ->
     (fbit n E b = true <-> exists s k x, P s /\ 0 <= k < s_length s /\ bit_pos s k = b /\
                                          sig_digits d sc s x /\ Z.testbit x k = true);
  ei_mask : forall b, 0 <= b < 8 * n -> (fbit n M b = true <-> forall s, P s -> ~ occupies s b)
}.

Lemma enc_union n d sc P Q E M E' M' :
  0 <= n -> enc_inv n d sc P E M -> enc_inv n d sc Q E' M' ->
  enc_inv n d sc (fun s => P s \/ Q s) (Z.lor E E') (Z.land M M').
Proof.
  intros Hn [A1 A2 A3 A4 A5] [B1 B2 B3 B4 B5]. split.
  - apply lor_bound; auto; lia.
  - apply land_bound; auto; lia.
  - intros s [|]; auto.
  - intros b Hb. rewrite fbit_lor, orb_true_iff, A4, B4 by assumption. split.
    + intros [(s & k & x & H & T)|(s & k & x & H & T)]; exists s, k, x; tauto.
    + intros (s & k & x & [H|H] & T); [left|right]; exists s, k, x; tauto.
  - intros b Hb. rewrite fbit_land, andb_true_iff, A5, B5 by assumption. split.
    + intros [H1 H2] s [|]; auto.
    + intros H; split; intros s Hs; apply H; auto.
Qed.

Lemma enc_inv_ext n d sc P Q E M : (forall s, P s <-> Q s) -> enc_inv n d sc P E M -> enc_inv n d sc Q E M.
Proof.
  intros H [A1 A2 A3 A4 A5]. split; auto.
  - intros s Hs. apply A3, H, Hs.
  - intros b Hb. rewrite A4 by assumption. split; intros (s & k & x & Hs & T); exists s, k, x; (split; [now apply H|assumption]).
  - intros b Hb. rewrite A5 by assumption. split; intros T s Hs; apply T, H, Hs.
Qed.

Lemma enc_node n d sc sigs fm E :
  node_ok n sigs -> create_formats sigs n = Ok fm -> encode_data d sigs fm sc = Ok E ->
  enc_inv n d sc (fun s => In s sigs) E (f_mask fm).
Proof.
  intros OK HF HE. destruct (encode_data_spec _ _ _ _ _ _ OK HF HE) as (A & B & C).
  destruct (node_mask _ _ _ OK HF) as [M1 M2]. split; auto.
  - intros s Hs. destruct (B s Hs) as (raw & x & H1 & H2 & _). exists x, raw. auto.
  - intros b Hb. split.
    + intros T.
      destruct (existsb (fun s => occb s b) sigs) eqn:EX.
      * apply existsb_exists in EX. destruct EX as (s & Hs & O). apply occb_iff in O.
        destruct O as (k & Hk & Ek). destruct (B s Hs) as (raw & x & H1 & H2 & H3).
        exists s, k, x. split; [assumption|]. split; [assumption|]. split; [assumption|].
        split; [exists raw; auto|]. rewrite <- H3 by assumption. now rewrite Ek.
      * rewrite C in T; [discriminate|assumption|]. intros s Hs O. apply occb_iff in O.
        assert (existsb (fun s => occb s b) sigs = true); [|congruence]. apply existsb_exists. eauto.
    + intros (s & k & x & Hs & Hk & Ek & (raw & D1 & D2) & T).
      destruct (B s Hs) as (raw' & x' & H1 & H2 & H3). assert (raw' = raw) by congruence. subst raw'.
      assert (x' = x) by congruence. subst x'. rewrite <- Ek, H3 by assumption. exact T.
Qed.

Definition enc_branch all d sc (nb : string * list (Z * codec)) : result (Z * Z) :=
  let* m := get_mux_number all d (fst nb) in
  match zget (snd nb) m with
  | Some c' => encode_node all c' d sc
  | None => Err EncodeError
  end.

Lemma encode_node_eq' all sigs fm muxes d sc :
  encode_node all (Codec sigs fm muxes) d sc =
  let* e := encode_data d sigs fm sc in
  let* subs := mapM (enc_branch all d sc) muxes in
  Ok (fold_left (fun acc sub => (Z.lor (fst acc) (fst sub), Z.land (snd acc) (snd sub))) subs (e, f_mask fm)).
Proof.
  rewrite encode_node_eq. destruct (encode_data d sigs fm sc) as [e|]; cbn [bind]; [|reflexivity].
  rewrite <- foldM_map. apply foldM_ext. intros a x. unfold enc_branch. now rewrite bind_assoc.
Qed.

Theorem encode_node_spec all n d sc p mid c :
  0 <= n -> names_unique all -> wfc all n p mid c -> codec_ok n c ->
  forall E M, encode_node all c d sc = Ok (E, M) ->
  enc_inv n d sc (fun s => In s (sel_list (mux_of all d) c)) E M /\ good (fun _ => true) (mux_of all d) c.
Proof.
  intros Hn U W. induction W as [p mid fm muxes HF ND SH CO SUB IH].
  assert (W' : wfc all n p mid (Codec (filter (belongs p mid) all) fm muxes)) by (constructor; auto).
  intros COK E M HE. inversion COK as [? ? ? NOK HF' CSUB]; subst.
  rewrite encode_node_eq' in HE. apply bind_ok in HE. destruct HE as (e & He & HE).
  apply bind_ok in HE. destruct HE as (subs & Hsubs & HE). apply Ok_inj in HE.
  apply mapM_ok in Hsubs.
  assert (BR : forall name bs sub, In (name, bs) muxes -> enc_branch all d sc (name, bs) = Ok sub ->
     exists v c', mux_of all d name = Some v /\ zget bs v = Some c' /\
       enc_inv n d sc (fun s => In s (sel_list (mux_of all d) c')) (fst sub) (snd sub) /\
       good (fun _ => true) (mux_of all d) c').
  { intros name bs sub HI HB. unfold enc_branch in HB. cbn [fst snd] in HB.
    apply bind_ok in HB. destruct HB as (v & Hv & HB). destruct (zget bs v) as [c'|] eqn:EZ; [|discriminate].
    exists v, c'. split; [unfold mux_of; now rewrite Hv|]. split; [assumption|].
    apply (get_in _ zspec) in EZ. destruct sub as [E' M']. eapply IH; eauto. }
  assert (GEN : forall ms subs, Forall2 (fun x y => enc_branch all d sc x = Ok y) ms subs ->
     (forall x, In x ms -> In x muxes) -> forall P e m, enc_inv n d sc P e m ->
     forall E M, fold_left (fun acc sub => (Z.lor (fst acc) (fst sub), Z.land (snd acc) (snd sub))) subs (e, m) = (E, M) ->
     enc_inv n d sc (fun s => P s \/ exists name bs v c', In (name, bs) ms /\ mux_of all d name = Some v /\
                       zget bs v = Some c' /\ In s (sel_list (mux_of all d) c')) E M).
  { clear subs Hsubs HE He e E M. intros ms subs HS. induction HS as [|[name bs] sub ms subs HB HS IHS];
      intros HI P e m HP E M HE; cbn in HE.
    - injection HE as <- <-. eapply enc_inv_ext; [|exact HP]. intros s. split; [auto|].
      intros [|(? & ? & ? & ? & [] & _)]; assumption.
    - destruct (BR name bs sub (HI _ (or_introl eq_refl)) HB) as (v & c' & E1 & E2 & HC & _).
      eapply enc_inv_ext; [|eapply IHS; [intros; apply HI; now right| |exact HE]; eapply enc_union; [assumption|exact HP|exact HC]].
      intros s. cbv beta. split.
      + intros [[|]|(n' & b' & v' & c'' & H1 & H2)]; [tauto| |].
        * right. exists name, bs, v, c'. cbn; tauto.
        * right. exists n', b', v', c''. cbn; tauto.
      + intros [|(n' & b' & v' & c'' & [[= <- <-]|H1] & H2 & H3 & H4)]; [tauto| |].
        * left. right. congruence.
        * right. exists n', b', v', c''. tauto. }
  split.
  - eapply enc_inv_ext; [|eapply (GEN muxes subs Hsubs (fun x H => H)); [eapply enc_node; eauto|exact HE]].
    intros s. cbv beta. symmetry. now apply (sel_list_muxes _ _ _ _ _ _ _ _ U W').
  - constructor.
    + intros name bs HI _. destruct (Forall2_in_l _ _ _ _ Hsubs HI) as (sub & _ & HB).
      destruct (BR _ _ _ HI HB) as (v & c' & E1 & E2 & _). exists v. split; [assumption|].
      apply (get_in_keys _ zspec). eauto.
    + intros name bs v c' HI Ev Ez. destruct (Forall2_in_l _ _ _ _ Hsubs HI) as (sub & _ & HB).
      destruct (BR _ _ _ HI HB) as (v' & c'' & E1 & E2 & _ & G). congruence.
Qed.

Theorem encode_node_ok all n d sc p mid c :
  0 <= n -> names_unique all -> wfc all n p mid c -> codec_ok n c ->
  good (fun _ => true) (mux_of all d) c ->
  (forall s, In s (sel_list (mux_of all d) c) -> exists x, sig_digits d sc s x) ->
  exists E M, encode_node all c d sc = Ok (E, M).
Proof.
  intros Hn U W. induction W as [p mid fm muxes HF ND SH CO SUB IH].
  assert (W' : wfc all n p mid (Codec (filter (belongs p mid) all) fm muxes)) by (constructor; auto).
  intros COK G HX. inversion COK as [? ? ? NOK HF' CSUB]; subst. inversion G as [? ? ? G1 G2]; subst.
  rewrite encode_node_eq'.
  destruct (proj2 (encode_data_ok n (filter (belongs p mid) all) fm d sc NOK HF)) as [e He].
  { intros s Hs. destruct (HX s) as (x & raw & H1 & H2); [|eauto].
    apply (sel_list_muxes _ _ _ _ _ _ _ _ U W'). now left. }
  rewrite He. cbn [bind].
  assert (exists subs, mapM (enc_branch all d sc) muxes = Ok subs) as [subs Hs].
  { apply mapM_ok_ex. apply Forall_forall. intros [name bs] HI.
    destruct (G1 _ _ HI eq_refl) as (v & E1 & E2). apply (get_in_keys _ zspec) in E2. destruct E2 as [c' E2].
    unfold enc_branch. cbn [fst snd]. unfold mux_of in E1.
    destruct (get_mux_number all d name) as [v'|] eqn:EM; [|discriminate]. injection E1 as ->. cbn [bind].
    rewrite E2. assert (E3 := E2). apply (get_in _ zspec) in E3.
    destruct (IH _ _ _ _ HI E3) as (E & M & HE).
    - eauto.
    - eapply G2; eauto. unfold mux_of. now rewrite EM.
    - intros s Hs. apply HX. apply (sel_list_muxes _ _ _ _ _ _ _ _ U W'). right.
      exists name, bs, v, c'. repeat split; auto. unfold mux_of. now rewrite EM.
    - rewrite HE. eauto. }
  rewrite Hs. cbn [bind]. destruct (fold_left _ subs _) as [E M]. eauto.
Qed.

(** ** Gathering *)
Lemma gather_own_spec d sigs :
  NoDup (map s_name sigs) -> 
  gather_own d sigs = let* vs := mapM (fun s => match sget d (s_name s) with
                                              | Some v => Ok (s_name s, v) | None => Err EncodeError end) sigs in Ok vs.
Proof.
  unfold gather_own. assert (G : forall l acc, NoDup (map fst acc ++ map s_name l) ->
    foldM (fun acc s => match sget d (s_name s) with
                      | Some v => Ok (sset acc (s_name s) v)
                      | None => Err EncodeError
                      end) l acc =
    let* vs := mapM (fun s => match sget d (s_name s) with
                 | Some v => Ok (s_name s, v) | None => Err EncodeError end) l in Ok (acc ++ vs)).
  { induction l as [|s l IH]; intros acc ND; cbn [foldM mapM map].
    - cbn. now rewrite app_nil_r.
    - destruct (sget d (s_name s)) as [v|]; cbn [bind]; [|reflexivity].
      cbn [map] in ND. assert (N := NoDup_remove_2 _ _ _ ND). rewrite in_app_iff in N.
      rewrite (set_new _ sspec) by tauto. rewrite IH.
      + destruct (mapM _ l); cbn [bind]; [|reflexivity]. now rewrite <- app_assoc.
      + rewrite map_app, <- app_assoc. exact ND. }
  intros ND. apply (G sigs []). exact ND.
Qed.

Definition gath_branch all d (nb : string * list (Z * codec)) : result (list (string * value)) :=
  let* m := get_mux_number all d (fst nb) in
  match zget (snd nb) m with
  | Some c' => gather_node all c' d
  | None => Err EncodeError
  end.

Lemma gather_node_eq' all sigs fm muxes d :
  gather_node all (Codec sigs fm muxes) d =
  let* own := gather_own d sigs in
  let* subs := mapM (gath_branch all d) muxes in
  Ok (fold_left (fun acc sub => supdate acc sub) subs own).
Proof.
  rewrite gather_node_eq. destruct (gather_own d sigs) as [e|]; cbn [bind]; [|reflexivity].
  rewrite <- foldM_map. apply foldM_ext. intros a x. unfold gath_branch. now rewrite bind_assoc.
Qed.

(** [out] is [f] restricted to the names of the signals in [P]. *)
Definition restricts (f : string -> option value) (P : signal -> Prop) (out : list (string * value)) : Prop :=
  NoDup (map fst out) /\
  forall k, ((exists s, P s /\ s_name s = k) -> sget out k = f k) /\
            ((forall s, P s -> s_name s <> k) -> sget out k = None).

Definition name_in (P : signal -> Prop) (k : string) : Prop := exists s, P s /\ s_name s = k.

Lemma restricts_union f (P Q : signal -> Prop) out sub :
  (forall k, name_in P k \/ ~ name_in P k) -> (forall k, name_in Q k \/ ~ name_in Q k) ->
  restricts f P out -> restricts f Q sub -> restricts f (fun s => P s \/ Q s) (supdate out sub).
Proof.
  intros DP DQ [N1 H1] [N2 H2]. split; [now apply (upd_nodup _ sspec)|].
  intros k. rewrite (get_upd _ sspec) by assumption. destruct (H1 k) as [A1 A2], (H2 k) as [B1 B2]. split.
  - intros (s & HPQ & E).
    destruct (DQ k) as [Dk|Dk].
    + rewrite (B1 Dk). destruct (f k) eqn:Ef; [reflexivity|].
      destruct (DP k) as [Dp|Dp]; [now rewrite (A1 Dp)|]. apply A2. intros t Ht Et. apply Dp. exists t; auto.
    + rewrite B2 by (intros t Ht Et; apply Dk; exists t; auto).
      destruct HPQ as [HP|HQ]; [apply A1; exists s; auto|exfalso; apply Dk; exists s; auto].
  - intros HN. rewrite B2, A2; [reflexivity| |]; intros s Hs; apply HN; auto.
Qed.

Lemma restricts_ext f P Q out : (forall s, P s <-> Q s) -> restricts f P out -> restricts f Q out.
Proof.
  intros E [N H]. split; [assumption|]. intros k. destruct (H k) as [A B]. split.
  - intros (s & Hs & En). apply A. exists s. split; [now apply E|assumption].
  - intros HN. apply B. intros s Hs. apply HN, E, Hs.
Qed.

Lemma name_in_list_dec l k : name_in (fun s => In s l) k \/ ~ name_in (fun s => In s l) k.
Proof.
  destruct (existsb (fun s => String.eqb (s_name s) k) l) eqn:E.
  - left. apply existsb_exists in E. destruct E as (s & Hs & E). apply String.eqb_eq in E. exists s; auto.
  - right. intros (s & Hs & En). assert (existsb (fun s => String.eqb (s_name s) k) l = true); [|congruence].
    apply existsb_exists. exists s. split; [assumption|]. now apply String.eqb_eq.
Qed.

Lemma name_in_or P Q k : name_in P k \/ ~ name_in P k -> name_in Q k \/ ~ name_in Q k ->
  name_in (fun s => P s \/ Q s) k \/ ~ name_in (fun s => P s \/ Q s) k.
Proof.
  intros [HP|HP] [HQ|HQ].
  - left. destruct HP as (s & H1 & H2). exists s; auto.
  - left. destruct HP as (s & H1 & H2). exists s; auto.
  - left. destruct HQ as (s & H1 & H2). exists s; auto.
  - right. intros (s & [H|H] & E); [apply HP|apply HQ]; exists s; auto.
Qed.

Theorem gather_node_spec all n d p mid c :
  names_unique all -> wfc all n p mid c ->
  forall out, gather_node all c d = Ok out ->
  restricts (sget d) (fun s => In s (sel_list (mux_of all d) c)) out /\
  (forall s, In s (sel_list (mux_of all d) c) -> exists v, sget d (s_name s) = Some v) /\
  good (fun _ => true) (mux_of all d) c.
Proof.
  intros U W. induction W as [p mid fm muxes HF ND SH CO SUB IH].
  assert (W' : wfc all n p mid (Codec (filter (belongs p mid) all) fm muxes)) by (constructor; auto).
  intros out HE. rewrite gather_node_eq' in HE. apply bind_ok in HE. destruct HE as (own & Hown & HE).
  apply bind_ok in HE. destruct HE as (subs & Hsubs & HE). apply Ok_inj in HE.
  apply mapM_ok in Hsubs.
  assert (NDH : NoDup (map s_name (filter (belongs p mid) all))) by now apply NoDup_filter_map.
  rewrite gather_own_spec in Hown by assumption. apply bind_ok in Hown. destruct Hown as (own' & Hown & E).
  apply Ok_inj in E; subst own'.
  set (here := filter (belongs p mid) all) in *.
  assert (OWN : restricts (sget d) (fun s => In s here) own /\ forall s, In s here -> exists v, sget d (s_name s) = Some v).
  { apply mapM_ok in Hown.
    assert (KEYS : map fst own = map s_name here).
    { clear -Hown. induction Hown as [|s e l l' HB H IH]; [reflexivity|]. cbn.
      destruct (sget d (s_name s)); [|discriminate]. injection HB as <-. cbn. now f_equal. }
    assert (VAL : forall s, In s here -> exists v, sget d (s_name s) = Some v /\ In (s_name s, v) own).
    { intros s Hs. destruct (Forall2_in_l _ _ _ _ Hown Hs) as (e & He & HB).
      destruct (sget d (s_name s)) as [v|]; [|discriminate]. injection HB as <-. eauto. }
    split; [split|].
    - now rewrite KEYS.
    - intros k. split.
      + intros (s & Hs & <-). destruct (VAL s Hs) as (v & E1 & E2). rewrite E1.
        apply (in_get _ sspec); [now rewrite KEYS|assumption].
      + intros HN. apply (get_none _ sspec). rewrite KEYS. intros HI. apply in_map_iff in HI.
        destruct HI as (s & E & Hs). now apply (HN s).
    - intros s Hs. destruct (VAL s Hs) as (v & E1 & E2). eauto. }
  destruct OWN as [OWN1 OWN2].
  assert (BR : forall name bs sub, In (name, bs) muxes -> gath_branch all d (name, bs) = Ok sub ->
     exists v c', mux_of all d name = Some v /\ zget bs v = Some c' /\
       restricts (sget d) (fun s => In s (sel_list (mux_of all d) c')) sub /\
       (forall s, In s (sel_list (mux_of all d) c') -> exists v, sget d (s_name s) = Some v) /\
       good (fun _ => true) (mux_of all d) c').
  { intros name bs sub HI HB. unfold gath_branch in HB. cbn [fst snd] in HB.
    apply bind_ok in HB. destruct HB as (v & Hv & HB). destruct (zget bs v) as [c'|] eqn:EZ; [|discriminate].
    exists v, c'. split; [unfold mux_of; now rewrite Hv|]. split; [assumption|].
    apply (get_in _ zspec) in EZ. eapply IH; eauto. }
  assert (GEN : forall ms subs, Forall2 (fun x y => gath_branch all d x = Ok y) ms subs ->
     (forall x, In x ms -> In x muxes) -> forall (P : signal -> Prop) acc,
       (forall k, name_in P k \/ ~ name_in P k) -> restricts (sget d) P acc ->
     restricts (sget d) (fun s => P s \/ exists name bs v c', In (name, bs) ms /\ mux_of all d name = Some v /\
                       zget bs v = Some c' /\ In s (sel_list (mux_of all d) c'))
       (fold_left (fun acc sub => supdate acc sub) subs acc)).
  { clear subs Hsubs HE. intros ms subs HS. induction HS as [|[name bs] sub ms subs HB HS IHS];
      intros HI P acc DP HP; cbn [fold_left].
    - eapply restricts_ext; [|exact HP]. intros s. split; [auto|].
      intros [|(? & ? & ? & ? & [] & _)]; assumption.
    - destruct (BR name bs sub (HI _ (or_introl eq_refl)) HB) as (v & c' & E1 & E2 & HC & _).
      eapply restricts_ext; [|eapply IHS; [intros; apply HI; now right| |eapply restricts_union; [exact DP| |exact HP|exact HC]]].
      + intros s. cbv beta. split.
        * intros [[|]|(n' & b' & v' & c'' & H1 & H2)]; [tauto| |].
          -- right. exists name, bs, v, c'. cbn; tauto.
          -- right. exists n', b', v', c''. cbn; tauto.
        * intros [|(n' & b' & v' & c'' & [[= <- <-]|H1] & H2 & H3 & H4)]; [tauto| |].
          -- left. right. congruence.
          -- right. exists n', b', v', c''. tauto.
      + intros k. apply name_in_or; [apply DP|apply name_in_list_dec].
      + intros k. apply name_in_list_dec. }
  split; [|split].
  - subst out. eapply restricts_ext; [|eapply (GEN muxes subs Hsubs (fun x H => H)); [|exact OWN1]].
    + intros s. cbv beta. symmetry. now apply (sel_list_muxes _ _ _ _ _ _ _ _ U W').
    + intros k. apply name_in_list_dec.
  - intros s Hs. apply (sel_list_muxes _ _ _ _ _ _ _ _ U W') in Hs.
    destruct Hs as [Hs|(name & bs & v & c' & HI & E1 & E2 & Hs)]; [auto|].
    destruct (Forall2_in_l _ _ _ _ Hsubs HI) as (sub & _ & HB).
    destruct (BR _ _ _ HI HB) as (v' & c'' & E1' & E2' & _ & HV & _).
    assert (v' = v) by congruence. subst v'. assert (c'' = c') by congruence. subst c''. auto.
  - constructor.
    + intros name bs HI _. destruct (Forall2_in_l _ _ _ _ Hsubs HI) as (sub & _ & HB).
      destruct (BR _ _ _ HI HB) as (v & c' & E1 & E2 & _). exists v. split; [assumption|].
      apply (get_in_keys _ zspec). eauto.
    + intros name bs v c' HI Ev Ez. destruct (Forall2_in_l _ _ _ _ Hsubs HI) as (sub & _ & HB).
      destruct (BR _ _ _ HI HB) as (v' & c'' & E1 & E2 & _ & _ & G). congruence.
Qed.

Theorem gather_node_ok all n d p mid c :
  names_unique all -> wfc all n p mid c ->
  good (fun _ => true) (mux_of all d) c ->
  (forall s, In s (sel_list (mux_of all d) c) -> exists v, sget d (s_name s) = Some v) ->
  exists out, gather_node all c d = Ok out.
Proof.
  intros U W. induction W as [p mid fm muxes HF ND SH CO SUB IH].
  assert (W' : wfc all n p mid (Codec (filter (belongs p mid) all) fm muxes)) by (constructor; auto).
  intros G HX. inversion G as [? ? ? G1 G2]; subst.
  rewrite gather_node_eq', gather_own_spec by now apply NoDup_filter_map.
  assert (exists own, mapM (fun s => match sget d (s_name s) with
       | Some v => Ok (s_name s, v) | None => Err EncodeError end) (filter (belongs p mid) all) = Ok own) as [own Hown].
  { apply mapM_ok_ex. apply Forall_forall. intros s Hs. destruct (HX s) as (v & ->); [|eauto].
    apply (sel_list_muxes _ _ _ _ _ _ _ _ U W'). now left. }
  rewrite Hown. cbn [bind].
  assert (exists subs, mapM (gath_branch all d) muxes = Ok subs) as [subs Hs].
  { apply mapM_ok_ex. apply Forall_forall. intros [name bs] HI.
    destruct (G1 _ _ HI eq_refl) as (v & E1 & E2). apply (get_in_keys _ zspec) in E2. destruct E2 as [c' E2].
    unfold gath_branch. cbn [fst snd]. unfold mux_of in E1.
    destruct (get_mux_number all d name) as [v'|] eqn:EM; [|discriminate]. injection E1 as ->. cbn [bind].
    rewrite E2. assert (E3 := E2). apply (get_in _ zspec) in E3.
    apply (IH _ _ _ _ HI E3).
    - eapply G2; eauto. unfold mux_of. now rewrite EM.
    - intros s Hs. apply HX. apply (sel_list_muxes _ _ _ _ _ _ _ _ U W'). right.
      exists name, bs, v, c'. repeat split; auto. unfold mux_of. now rewrite EM. }
  rewrite Hs. cbn [bind]. eauto.
Qed.

(** ** Decoding *)
Section Decode.
  Variables (all : list signal) (dc sc : bool).
  (** [pd]: the adjusted payload; [nb]: the number of received bytes. *)
  Variables (pd : list Z) (nb : Z).

  Definition dval (k : string) : option value :=
    match get_signal all k with
    | Ok s => if within nb s then
                match decode_signal_value s (read_raw pd s) dc sc with Ok v => Some v | Err _ => None end
              else None
    | Err _ => None
    end.

  Definition mux_dec (k : string) : option Z :=
    match dval k with
    | Some v => match get_mux_number all [(k, v)] k with Ok z => Some z | Err _ => None end
    | None => None
    end.

  Lemma get_mux_number_local d k v : sget d k = Some v ->
    get_mux_number all d k = get_mux_number all [(k, v)] k.
  Proof.
    intros H. unfold get_mux_number, sget_exn. rewrite H. cbn. now rewrite String.eqb_refl.
  Qed.
End Decode.

Theorem decode_node_spec all n data dc sc at_ ae pd p mid c :
  0 <= n -> names_unique all -> wfc all n p mid c -> codec_ok n c -> bytes_ok data ->
  fit_data data n at_ ae = Ok pd ->
  let nb := zlen data in
  let mv := mux_dec all dc sc pd nb in
  let w := fun k => match get_signal all k with Ok s => within nb s | Err _ => true end in
  (forall out, decode_node all n c data dc sc at_ ae = Ok out ->
    restricts (dval all dc sc pd nb) (fun s => In s (sel_list mv c)) out /\
    (forall s, In s (sel_list mv c) -> within nb s = true -> exists v, decode_signal_value s (read_raw pd s) dc sc = Ok v) /\
    good w mv c) /\
  (good w mv c ->
   (forall s, In s (sel_list mv c) -> within nb s = true -> exists v, decode_signal_value s (read_raw pd s) dc sc = Ok v) ->
   exists out, decode_node all n c data dc sc at_ ae = Ok out).
Proof.
  intros Hn U W COK HB HFD nb mv w.
  assert (GS : forall s, In s all -> get_signal all (s_name s) = Ok s) by (intros; now apply get_signal_in).
  assert (NW : forall c s, codec_ok n c -> at_ = false -> In s (sel_list mv c) -> within nb s = true).
  { intros c0 s C0 Eat Hs. destruct (proj1 (fit_data_iff data n at_ ae Hn) (ex_intro _ _ HFD)) as [T1 _].
    assert (n <= nb). { destruct (Z.lt_ge_cases (zlen data) n); [|unfold nb; lia]. rewrite T1 in Eat by assumption. discriminate. }
    revert s Hs. induction C0 as [sigs fm muxes NOK HF SUB IH]. intros s Hs. apply sel_list_in in Hs.
    destruct Hs as [Hs|(m & bs & v & c' & Hm & E1 & E2 & E3 & Hs)].
    - assert (FT := no_fits _ _ NOK s Hs). apply sig_fits_iff in FT; [unfold within; lia|now apply NOK].
    - apply (get_in _ sspec) in E1. apply (get_in _ zspec) in E3. eapply IH; eauto. }
  induction W as [p mid fm muxes HF ND SH CO SUB IH].
  assert (W' : wfc all n p mid (Codec (filter (belongs p mid) all) fm muxes)) by (constructor; auto).
  inversion COK as [? ? ? NOK HF' CSUB]; subst.
  set (here := filter (belongs p mid) all) in *.
  assert (HIN : forall s, In s here -> In s all) by (intros s Hs; apply filter_In in Hs; tauto).
  assert (NDH : NoDup (map s_name here)) by now apply NoDup_filter_map.
  assert (DV : forall s, In s all -> dval all dc sc pd nb (s_name s) =
     if within nb s then match decode_signal_value s (read_raw pd s) dc sc with Ok v => Some v | Err _ => None end else None).
  { intros s Hs. unfold dval. now rewrite GS. }
  assert (LAST : forall m name bs, In (name, bs) muxes -> In m here -> s_name m = name -> w name = within nb m).
  { intros m name bs _ Hm <-. unfold w. now rewrite GS by auto. }
  (* own signals *)
  assert (OWN : forall own, mapM (fun s => let* v := decode_signal_value s (read_raw pd s) dc sc in Ok (s_name s, v))
        (filter (within nb) here) = Ok own ->
        restricts (dval all dc sc pd nb) (fun s => In s here) own /\
        (forall s, In s here -> within nb s = true -> exists v, decode_signal_value s (read_raw pd s) dc sc = Ok v)).
  { intros own HO. apply mapM_ok in HO.
    assert (KEYS : map fst own = map s_name (filter (within nb) here)).
    { clear -HO. induction HO as [|s e l l' HB H IH]; [reflexivity|]. cbn.
      apply bind_ok in HB. destruct HB as (v & _ & [= <-]). cbn. now f_equal. }
    assert (VAL : forall s, In s here -> within nb s = true -> exists v, decode_signal_value s (read_raw pd s) dc sc = Ok v /\ In (s_name s, v) own).
    { intros s Hs Hw. destruct (Forall2_in_l _ _ _ s HO) as (e & He & HBd); [now apply filter_In|].
      apply bind_ok in HBd. destruct HBd as (v & Hv & [= <-]). eauto. }
    assert (NDO : NoDup (map fst own)) by (rewrite KEYS; now apply NoDup_filter_map).
    split; [split; [assumption|]|].
    - intros k. split.
      + intros (s & Hs & <-). rewrite DV by auto. destruct (within nb s) eqn:Ew.
        * destruct (VAL s Hs Ew) as (v & E1 & E2). rewrite E1. now apply (in_get _ sspec).
        * apply (get_none _ sspec). rewrite KEYS. intros HI. apply in_map_iff in HI.
          destruct HI as (t & E & Ht). apply filter_In in Ht. destruct Ht as [Ht Et].
          assert (t = s) by (apply (NoDup_map_inj s_name here); auto). subst t. congruence.
      + intros HN. apply (get_none _ sspec). rewrite KEYS. intros HI. apply in_map_iff in HI.
        destruct HI as (s & E & Hs). apply filter_In in Hs. now apply (HN s).
    - intros s Hs Hw. destruct (VAL s Hs Hw) as (v & E1 & E2). eauto. }
  set (step := fun acc (nbr : string * list (Z * codec)) =>
           if at_ && negb (smem acc (fst nbr)) then Ok acc
           else
             let* m := get_mux_number all acc (fst nbr) in
             let* sub := match zget (snd nbr) m with
                         | Some c' => decode_node all n c' data dc sc at_ ae
                         | None => Err DecodeError
                         end in
             Ok (supdate acc sub)).
  (* behaviour of one step *)
  assert (STEP : forall (P : signal -> Prop) acc name bs,
     (forall s, In s here -> P s) -> restricts (dval all dc sc pd nb) P acc -> In (name, bs) muxes ->
     exists m, In m here /\ s_name m = name /\ w name = within nb m /\
     match dval all dc sc pd nb name with
     | Some v => step acc (name, bs) = let* m := get_mux_number all [(name, v)] name in
             let* sub := match zget bs m with
                         | Some c' => decode_node all n c' data dc sc at_ ae
                         | None => Err DecodeError
                         end in
             Ok (supdate acc sub)
     | None => (within nb m = true -> exists e, decode_signal_value m (read_raw pd m) dc sc = Err e) /\
               (within nb m = false -> step acc (name, bs) = Ok acc)
     end).
  { intros P acc name bs HP [_ HR] HI. destruct (SH _ _ HI) as (m & Hm & En & _). subst name.
    exists m. split; [assumption|]. split; [reflexivity|]. split; [eapply LAST; eauto|].
    destruct (HR (s_name m)) as [HR1 _]. assert (HG : sget acc (s_name m) = dval all dc sc pd nb (s_name m)) by (apply HR1; exists m; auto).
    destruct (dval all dc sc pd nb (s_name m)) as [v|] eqn:ED.
    - unfold step. cbn [fst snd]. assert (smem acc (s_name m) = true) as -> by (unfold dmem; now rewrite HG).
      rewrite andb_false_r. now rewrite (get_mux_number_local _ _ _ _ HG).
    - rewrite DV in ED by auto. split; intros Ew; rewrite Ew in ED.
      + destruct (decode_signal_value m (read_raw pd m) dc sc); [discriminate|eauto].
      + unfold step. cbn [fst]. assert (smem acc (s_name m) = false) as -> by (unfold dmem; now rewrite HG).
        destruct at_ eqn:Eat; [reflexivity|].
        assert (within nb m = true); [|congruence].
        apply (NW (Codec here fm muxes)); auto. apply sel_list_in. now left. }
  assert (BRI : forall name bs i c0, In (name, bs) muxes -> zget bs i = Some c0 -> In (i, c0) bs).
  { intros name bs i c0 _ H. now apply (get_in _ zspec) in H. }
  split.
  - intros out HE. rewrite decode_node_eq, decode_data_eq in HE by assumption. rewrite HFD in HE. cbn [bind] in HE.
    apply bind_ok in HE. destruct HE as (own & Hown & HE). fold step in HE.
    destruct (OWN own Hown) as [OWN1 OWN2].
    assert (GEN : forall ms, (forall x, In x ms -> In x muxes) -> forall (P : signal -> Prop) acc out,
       (forall k, name_in P k \/ ~ name_in P k) -> (forall s, In s here -> P s) ->
       restricts (dval all dc sc pd nb) P acc -> foldM step ms acc = Ok out ->
       restricts (dval all dc sc pd nb)
         (fun s => P s \/ exists name bs v c', In (name, bs) ms /\ mv name = Some v /\
                       zget bs v = Some c' /\ In s (sel_list mv c')) out /\
       (forall name bs v c', In (name, bs) ms -> mv name = Some v -> zget bs v = Some c' ->
           (forall s, In s (sel_list mv c') -> within nb s = true -> exists v, decode_signal_value s (read_raw pd s) dc sc = Ok v) /\ good w mv c') /\
       (forall name bs, In (name, bs) ms -> w name = true -> exists v, mv name = Some v /\ In v (map fst bs))).
    { clear own Hown HE OWN1 out. induction ms as [|[name bs] ms IHm]; intros HI P acc out DP HP HR HE; cbn [foldM] in HE.
      - apply Ok_inj in HE; subst out. split; [|split; [intros ? ? ? ? []|intros ? ? []]].
        eapply restricts_ext; [|exact HR]. intros s. split; [auto|].
        intros [|(? & ? & ? & ? & [] & _)]; assumption.
      - apply bind_ok in HE. destruct HE as (acc' & HS & HE).
        assert (HIM := HI _ (or_introl eq_refl)).
        destruct (STEP P acc name bs HP HR HIM) as (m & Hm & En & Ew & ST).
        destruct (dval all dc sc pd nb name) as [v|] eqn:ED.
        + rewrite ST in HS. apply bind_ok in HS. destruct HS as (z & Hz & HS).
          apply bind_ok in HS. destruct HS as (sub & Hsub & HS). apply Ok_inj in HS; subst acc'.
          destruct (zget bs z) as [c'|] eqn:EZ; [|discriminate].
          assert (EMV : mv name = Some z) by (unfold mv, mux_dec; now rewrite ED, Hz).
          assert (HC := BRI _ _ _ _ HIM EZ).
          destruct (IH _ _ _ _ HIM HC) as [IH1 _]; [eauto|].
          destruct (IH1 sub Hsub) as (R1 & R2 & R3).
          destruct (IHm (fun x H => HI x (or_intror H)) (fun s => P s \/ In s (sel_list mv c')) (supdate acc sub) out) as (Q1 & Q2 & Q3).
          * intros k. apply name_in_or; [apply DP|apply name_in_list_dec].
          * auto.
          * apply restricts_union; auto. intros k; apply name_in_list_dec.
          * assumption.
          * split; [|split].
            -- eapply restricts_ext; [|exact Q1]. intros s. cbv beta. split.
               ++ intros [[|]|(n' & b' & v' & c'' & H1 & H2)]; [tauto| |].
                  ** right. exists name, bs, z, c'. cbn; tauto.
                  ** right. exists n', b', v', c''. cbn; tauto.
               ++ intros [|(n' & b' & v' & c'' & [[= <- <-]|H1] & H2 & H3 & H4)]; [tauto| |].
                  ** left. right. congruence.
                  ** right. exists n', b', v', c''. tauto.
            -- intros n' b' v' c'' [[= <- <-]|H1] H2 H3; [|eauto].
               assert (v' = z) by congruence. subst v'. assert (c'' = c') by congruence. subst c''. auto.
            -- intros n' b' [[= <- <-]|H1] H2; [|eauto]. exists z. split; [assumption|].
               apply (get_in_keys _ zspec). eauto.
        + assert (EMV : mv name = None) by (unfold mv, mux_dec; now rewrite ED).
          destruct (within nb m) eqn:Ewm.
          { exfalso. destruct ST as [ST _]. destruct (ST eq_refl) as [e He].
            (* the own decode has succeeded *)
            destruct (OWN2 m Hm Ewm) as [v Hv]. congruence. }
          destruct ST as [_ ST]. rewrite (ST eq_refl) in HS. apply Ok_inj in HS; subst acc'.
          destruct (IHm (fun x H => HI x (or_intror H)) P acc out) as (Q1 & Q2 & Q3); auto.
          split; [|split].
          * eapply restricts_ext; [|exact Q1]. intros s. cbv beta. split.
            -- intros [|(n' & b' & v' & c'' & H1 & H2)]; [tauto|]. right. exists n', b', v', c''. cbn; tauto.
            -- intros [|(n' & b' & v' & c'' & [[= <- <-]|H1] & H2 & H3)]; [tauto|congruence|].
               right. exists n', b', v', c''. tauto.
          * intros n' b' v' c'' [[= <- <-]|H1] H2 H3; [congruence|eauto].
          * intros n' b' [[= <- <-]|H1] H2; [congruence|eauto]. }
    destruct (GEN muxes (fun x H => H) (fun s => In s here) own out) as (Q1 & Q2 & Q3); auto.
    { intros k. apply name_in_list_dec. }
    split; [|split].
    + eapply restricts_ext; [|exact Q1]. intros s. cbv beta. symmetry.
      now apply (sel_list_muxes _ _ _ _ _ _ _ _ U W').
    + intros s Hs Hw. apply (sel_list_muxes _ _ _ _ _ _ _ _ U W') in Hs.
      destruct Hs as [Hs|(name & bs & v & c' & HI & E1 & E2 & Hs)]; [auto|].
      destruct (Q2 _ _ _ _ HI E1 E2) as [Q _]. auto.
    + constructor; [assumption|]. intros name bs v c' HI E1 E2. now apply (Q2 _ _ _ _ HI E1 E2).
  - intros G HX. inversion G as [? ? ? G1 G2]; subst.
    rewrite decode_node_eq, decode_data_eq by assumption. rewrite HFD. cbn [bind].
    assert (OWN2 : forall s, In s here -> within nb s = true -> exists v, decode_signal_value s (read_raw pd s) dc sc = Ok v).
    { intros s Hs. apply HX. apply (sel_list_muxes _ _ _ _ _ _ _ _ U W'). now left. }
    assert (exists own, mapM (fun s => let* v := decode_signal_value s (read_raw pd s) dc sc in Ok (s_name s, v))
        (filter (within nb) here) = Ok own) as [own Hown].
    { apply mapM_ok_ex. apply Forall_forall. intros s Hs. apply filter_In in Hs. destruct Hs as [Hs Hw].
      destruct (OWN2 s Hs Hw) as [v ->]. cbn. eauto. }
    fold nb. rewrite Hown. cbn [bind]. fold step. destruct (OWN own Hown) as [OWN1 _].
    assert (GEN : forall ms, (forall x, In x ms -> In x muxes) -> forall (P : signal -> Prop) acc,
       (forall k, name_in P k \/ ~ name_in P k) -> (forall s, In s here -> P s) ->
       restricts (dval all dc sc pd nb) P acc -> exists out, foldM step ms acc = Ok out).
    { induction ms as [|[name bs] ms IHm]; intros HI P acc DP HP HR; cbn [foldM]; [eauto|].
      assert (HIM := HI _ (or_introl eq_refl)).
      destruct (STEP P acc name bs HP HR HIM) as (m & Hm & En & Ew & ST).
      destruct (dval all dc sc pd nb name) as [v|] eqn:ED.
      - rewrite ST.
        assert (Hw : w name = true).
        { rewrite Ew. subst name. rewrite DV in ED by auto. destruct (within nb m); [reflexivity|discriminate]. }
        destruct (G1 _ _ HIM Hw) as (z & EMV & HZ). apply (get_in_keys _ zspec) in HZ. destruct HZ as [c' EZ].
        assert (EM2 := EMV). unfold mv, mux_dec in EM2. rewrite ED in EM2.
        destruct (get_mux_number all [(name, v)] name) as [z'|] eqn:EG; [|discriminate].
        injection EM2 as ->. cbn [bind]. rewrite EZ.
        assert (HC := BRI _ _ _ _ HIM EZ). destruct (IH _ _ _ _ HIM HC) as [IH1 IH2]; [eauto|].
        destruct IH2 as [sub Hsub].
        { eapply G2; eauto. }
        { intros s Hs. apply HX. apply (sel_list_muxes _ _ _ _ _ _ _ _ U W'). right.
          exists name, bs, z, c'. auto. }
        rewrite Hsub. cbn [bind]. destruct (IH1 sub Hsub) as (R1 & _ & _).
        apply (IHm (fun x H => HI x (or_intror H)) (fun s => P s \/ In s (sel_list mv c'))); auto.
        + intros k. apply name_in_or; [apply DP|apply name_in_list_dec].
        + apply restricts_union; auto. intros k; apply name_in_list_dec.
      - destruct (within nb m) eqn:Ewm.
        { exfalso. destruct ST as [ST _]. destruct (ST eq_refl) as [e He]. destruct (OWN2 m Hm Ewm). congruence. }
        destruct ST as [_ ST]. rewrite (ST eq_refl). cbn [bind].
        apply (IHm (fun x H => HI x (or_intror H)) P acc); auto. }
    apply (GEN muxes (fun x H => H) (fun s => In s here) own); auto.
    intros k. apply name_in_list_dec.
Qed.
