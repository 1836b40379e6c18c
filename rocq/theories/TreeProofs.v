(** TreeProofs: shape of the codec tree, the signals selected by a multiplexer valuation, and
    soundness of the strict layout check. *)
From Coq Require Import Sorting.Permutation Sorting.Sorted.
From Verif Require Import Base PyNum Conversion Signal Bitstruct Formats Message LayoutSpec
     DictLemmas BitsLemmas GenItems NodeProofs CheckSignal.
Ltac Zify.zify_post_hook ::= Z.div_mod_to_equations.

(** ** Equations without nested fixpoints *)
Lemma encode_node_eq all sigs fm muxes d sc :
  encode_node all (Codec sigs fm muxes) d sc =
  let* e := encode_data d sigs fm sc in
  foldM (fun acc nb =>
           let* m := get_mux_number all d (fst nb) in
           let* sub := match zget (snd nb) m with
                       | Some c' => encode_node all c' d sc
                       | None => Err EncodeError
                       end in
           Ok (Z.lor (fst acc) (fst sub), Z.land (snd acc) (snd sub))) muxes (e, f_mask fm).
Proof.
  cbn [encode_node]. destruct (encode_data d sigs fm sc) as [e|]; cbn [bind]; [|reflexivity].
  generalize (e, f_mask fm) as acc.
  induction muxes as [|[name bs] r IH]; intros acc; [reflexivity|].
  cbn [foldM fst snd]. destruct (get_mux_number all d name) as [m|]; cbn [bind]; [|reflexivity].
  assert (E : forall bs, (fix find (bs : list (Z * codec)) : result (Z * Z) :=
                match bs with
                | [] => Err EncodeError
                | (i, c') :: bs' => if i =? m then encode_node all c' d sc else find bs'
                end) bs =
              match zget bs m with Some c' => encode_node all c' d sc | None => Err EncodeError end).
  { clear. induction bs as [|[i c'] bs IHb]; [reflexivity|]. cbn. destruct (i =? m); auto. }
  rewrite E. destruct (match zget bs m with Some c' => _ | None => _ end); cbn [bind]; [|reflexivity].
  apply IH.
Qed.

Lemma decode_node_eq all n sigs fm muxes data dc sc at_ ae :
  decode_node all n (Codec sigs fm muxes) data dc sc at_ ae =
  let* d := decode_data data n sigs fm dc sc at_ ae in
  foldM (fun acc nb =>
           if at_ && negb (smem acc (fst nb)) then Ok acc
           else
             let* m := get_mux_number all acc (fst nb) in
             let* sub := match zget (snd nb) m with
                         | Some c' => decode_node all n c' data dc sc at_ ae
                         | None => Err DecodeError
                         end in
             Ok (supdate acc sub)) muxes d.
Proof.
  cbn [decode_node]. destruct (decode_data _ _ _ _ _ _ _ _) as [d|]; cbn [bind]; [|reflexivity].
  revert d. induction muxes as [|[name bs] r IH]; intros acc; [reflexivity|].
  cbn [foldM fst snd]. destruct (at_ && negb (smem acc name)); cbn [bind]; [apply IH|].
  destruct (get_mux_number all acc name) as [m|]; cbn [bind]; [|reflexivity].
  assert (E : forall bs, (fix find (bs : list (Z * codec)) : result (list (string * value)) :=
                match bs with
                | [] => Err DecodeError
                | (i, c') :: bs' => if i =? m then decode_node all n c' data dc sc at_ ae else find bs'
                end) bs =
              match zget bs m with Some c' => decode_node all n c' data dc sc at_ ae | None => Err DecodeError end).
  { clear. induction bs as [|[i c'] bs IHb]; [reflexivity|]. cbn. destruct (i =? m); auto. }
  rewrite E. destruct (match zget bs m with Some c' => _ | None => _ end); cbn [bind]; [|reflexivity].
  apply IH.
Qed.

Definition gather_own (d : list (string * value)) (sigs : list signal) : result (list (string * value)) :=
  foldM (fun acc s => match sget d (s_name s) with
                      | Some v => Ok (sset acc (s_name s) v)
                      | None => Err EncodeError
                      end) sigs [].

Lemma gather_node_eq all sigs fm muxes d :
  gather_node all (Codec sigs fm muxes) d =
  let* own := gather_own d sigs in
  foldM (fun acc nb =>
           let* m := get_mux_number all d (fst nb) in
           let* sub := match zget (snd nb) m with
                       | Some c' => gather_node all c' d
                       | None => Err EncodeError
                       end in
           Ok (supdate acc sub)) muxes own.
Proof.
  cbn [gather_node]. fold (gather_own d sigs).
  destruct (gather_own d sigs) as [e|]; cbn [bind]; [|reflexivity].
  revert e. induction muxes as [|[name bs] r IH]; intros acc; [reflexivity|].
  cbn [foldM fst snd]. destruct (get_mux_number all d name) as [m|]; cbn [bind]; [|reflexivity].
  assert (E : forall bs, (fix find (bs : list (Z * codec)) : result (list (string * value)) :=
                match bs with
                | [] => Err EncodeError
                | (i, c') :: bs' => if i =? m then gather_node all c' d else find bs'
                end) bs =
              match zget bs m with Some c' => gather_node all c' d | None => Err EncodeError end).
  { clear. induction bs as [|[i c'] bs IHb]; [reflexivity|]. cbn. destruct (i =? m); auto. }
  rewrite E. destruct (match zget bs m with Some c' => _ | None => _ end); cbn [bind]; [|reflexivity].
  apply IH.
Qed.

Lemma signal_tree_eq sigs fm muxes :
  create_signal_tree (Codec sigs fm muxes) =
  STree (map (fun s => (s_name s,
                        option_map (map (fun ic => (fst ic, create_signal_tree (snd ic))))
                                   (sget muxes (s_name s)))) sigs).
Proof.
  cbn [create_signal_tree]. f_equal. apply map_ext. intros s. f_equal.
  induction muxes as [|[n bs] r IH]; [reflexivity|]. cbn.
  destruct (String.eqb n (s_name s)); [|exact IH]. cbn. f_equal.
  clear. induction bs as [|[i c'] bs IHb]; [reflexivity|]. cbn. now rewrite IHb.
Qed.

Definition check_item all (bits : list obit) (nd : string * option (list (Z * stree)))
  : result (list obit) :=
  let* s := get_signal all (fst nd) in
  let* b1 := check_signal bits s in
  match snd nd with
  | None => Ok b1
  | Some cs => foldM (fun acc c => let* cb := check_tree all (snd c) b1 in Ok (merge_bits acc cb)) cs b1
  end.

Lemma check_tree_eq all nodes bits :
  check_tree all (STree nodes) bits = foldM (check_item all) nodes bits.
Proof.
  cbn [check_tree]. revert bits. induction nodes as [|[name sub] r IH]; intros bits; [reflexivity|].
  cbn [foldM]. unfold check_item at 1. cbn [fst snd].
  destruct (get_signal all name) as [s|]; cbn [bind]; [|reflexivity].
  destruct (check_signal bits s) as [b1|]; cbn [bind]; [|reflexivity].
  destruct sub as [cs|]; cbn [bind]; [|apply IH].
  assert (E : forall acc, (fix kids (cs : list (Z * stree)) (acc : list obit) : result (list obit) :=
                       match cs with
                       | [] => Ok acc
                       | (_, t') :: cr =>
                           let* cb := check_tree all t' b1 in
                           kids cr (merge_bits acc cb)
                       end) cs acc
           = foldM (fun acc c => let* cb := check_tree all (snd c) b1 in Ok (merge_bits acc cb)) cs acc).
  { clear. induction cs as [|[i t] cs IHc]; intros acc; [reflexivity|]. cbn [foldM snd].
    destruct (check_tree all t b1); cbn [bind]; [apply IHc|reflexivity]. }
  rewrite E. destruct (foldM _ cs b1); cbn [bind]; [apply IH|reflexivity].
Qed.

(** ** Signals selected by a valuation of the multiplexers *)
Fixpoint sel_list (mv : string -> option Z) (c : codec) : list signal :=
  match c with
  | Codec sigs _ muxes =>
      flat_map (fun s =>
        s :: (fix look (ms : list (string * list (Z * codec))) :=
                match ms with
                | [] => []
                | (n, bs) :: r =>
                    if String.eqb n (s_name s) then
                      match mv n with
                      | None => []
                      | Some m => (fix find (bs : list (Z * codec)) :=
                                     match bs with
                                     | [] => []
                                     | (i, c') :: bs' => if i =? m then sel_list mv c' else find bs'
                                     end) bs
                      end
                    else look r
                end) muxes) sigs
  end.

Definition sel_sub (mv : string -> option Z) (muxes : list (string * list (Z * codec))) (s : signal)
  : list signal :=
  match sget muxes (s_name s), mv (s_name s) with
  | Some bs, Some m => match zget bs m with Some c' => sel_list mv c' | None => [] end
  | _, _ => []
  end.

Lemma sel_list_eq mv sigs fm muxes :
  sel_list mv (Codec sigs fm muxes) = flat_map (fun s => s :: sel_sub mv muxes s) sigs.
Proof.
  cbn [sel_list]. apply flat_map_ext. intros s. f_equal. unfold sel_sub.
  induction muxes as [|[n bs] r IH]; [reflexivity|]. cbn.
  destruct (String.eqb_spec n (s_name s)) as [->|]; [|exact IH].
  destruct (mv (s_name s)) as [m|]; [|reflexivity].
  clear. induction bs as [|[i c'] bs IHb]; [reflexivity|]. cbn. destruct (i =? m); auto.
Qed.

Lemma sel_list_in mv sigs fm muxes s :
  In s (sel_list mv (Codec sigs fm muxes)) <->
  In s sigs \/ exists m bs v c', In m sigs /\ sget muxes (s_name m) = Some bs /\
                                 mv (s_name m) = Some v /\ zget bs v = Some c' /\ In s (sel_list mv c').
Proof.
  rewrite sel_list_eq, in_flat_map. split.
  - intros (m & Hm & [->|HI]); [now left|]. right. unfold sel_sub in HI.
    destruct (sget muxes (s_name m)) as [bs|] eqn:E1; [|contradiction].
    destruct (mv (s_name m)) as [v|] eqn:E2; [|contradiction].
    destruct (zget bs v) as [c'|] eqn:E3; [|contradiction].
    exists m, bs, v, c'. auto.
  - intros [H|(m & bs & v & c' & Hm & E1 & E2 & E3 & HI)].
    + exists s. split; [assumption|now left].
    + exists m. split; [assumption|]. right. unfold sel_sub. now rewrite E1, E2, E3.
Qed.

(** ** Shape of the tree built by [create_codec] *)
Inductive wfc (all : list signal) (n : Z) : option string -> option Z -> codec -> Prop :=
| wfc_intro p mid fm muxes :
    create_formats (filter (belongs p mid) all) n = Ok fm ->
    NoDup (map fst muxes) ->
    (forall name bs, In (name, bs) muxes ->
       exists m, In m (filter (belongs p mid) all) /\ s_name m = name /\ s_is_mux m = true /\
                 map fst bs = children_ids all m /\ children_ids all m <> []) ->
    (forall m, In m (filter (belongs p mid) all) -> s_is_mux m = true -> children_ids all m <> [] ->
       exists bs, In (s_name m, bs) muxes) ->
    (forall name bs i c, In (name, bs) muxes -> In (i, c) bs -> wfc all n (Some name) (Some i) c) ->
    wfc all n p mid (Codec (filter (belongs p mid) all) fm muxes).

Lemma set_add_in l x y : In y (set_add l x) <-> In y l \/ y = x.
Proof.
  unfold set_add. destruct (zmem x l) eqn:E.
  - unfold zmem in E. apply existsb_exists in E. destruct E as (z & Hz & E).
    assert (x = z) by lia. subst. split; [auto|]. intros [ | -> ]; auto.
  - rewrite in_app_iff. cbn. intuition auto.
Qed.
Lemma set_add_nodup l x : NoDup l -> NoDup (set_add l x).
Proof.
  intros H. unfold set_add. destruct (zmem x l) eqn:E; [assumption|].
  apply Permutation_NoDup with (x :: l); [apply Permutation_cons_append|].
  constructor; [|assumption]. intros HI. unfold zmem in E.
  assert (existsb (Z.eqb x) l = true); [|congruence]. apply existsb_exists. exists x. split; [assumption|lia].
Qed.
Lemma fold_set_add l : forall acc,
  (NoDup acc -> NoDup (fold_left set_add l acc)) /\
  (forall y, In y (fold_left set_add l acc) <-> In y acc \/ In y l).
Proof.
  induction l as [|x l IH]; intros acc; cbn.
  - tauto.
  - destruct (IH (set_add acc x)) as [H1 H2]. split.
    + intros; apply H1, set_add_nodup; assumption.
    + intros y. rewrite H2, set_add_in. intuition congruence.
Qed.

Lemma children_ids_spec all s :
  NoDup (children_ids all s) /\
  forall i, In i (children_ids all s) <->
    (exists c ids, In c all /\ s_mux_sig c = Some (s_name s) /\ s_mux_ids c = Some ids /\ In i ids) \/
    (exists ch, conv_choices (s_conv s) = Some ch /\ In i (map fst ch)).
Proof.
  unfold children_ids.
  set (f := fun acc c => if option_eqb String.eqb (s_mux_sig c) (Some (s_name s)) then
                   match s_mux_ids c with Some l => fold_left set_add l acc | None => acc end else acc).
  assert (F : forall l acc, (NoDup acc -> NoDup (fold_left f l acc)) /\
    (forall y, In y (fold_left f l acc) <-> In y acc \/
       exists c ids, In c l /\ s_mux_sig c = Some (s_name s) /\ s_mux_ids c = Some ids /\ In y ids)).
  { induction l as [|c l IH]; intros acc; cbn [fold_left].
    - split; [auto|]. intros y. split; [auto|]. intros [|(c & ids & [] & _)]; auto.
    - assert (FA : (NoDup acc -> NoDup (f acc c)) /\ forall y, In y (f acc c) <-> In y acc \/
         exists ids, s_mux_sig c = Some (s_name s) /\ s_mux_ids c = Some ids /\ In y ids).
      { unfold f. destruct (s_mux_sig c) as [nm|]; cbn [option_eqb].
        - destruct (String.eqb_spec nm (s_name s)) as [->|N].
          + destruct (s_mux_ids c) as [ids|].
            * destruct (fold_set_add ids acc) as [A B]. split; [assumption|].
              intros y. rewrite B. split; intros [|H]; auto; [right; eauto|].
              destruct H as (? & _ & [= <-] & H). auto.
            * split; [auto|]. intros y. split; [auto|]. intros [|(? & _ & [= ] & _)]; auto.
          + split; [auto|]. intros y. split; [auto|]. intros [|(? & [= ?] & _)]; [auto|congruence].
        - split; [auto|]. intros y. split; [auto|]. intros [|(? & [= ] & _)]; auto. }
      destruct FA as [FA1 FA2]. destruct (IH (f acc c)) as [A B]. split; [auto|].
      intros y. rewrite B, FA2. split.
      + intros [[|(ids & H)]|(c' & ids & H1 & H2)]; auto.
        * right. exists c, ids. cbn; tauto.
        * right. exists c', ids. cbn; tauto.
      + intros [|(c' & ids & [<-|H1] & H2)]; auto.
        * left; right. eauto.
        * right. eauto. }
  destruct (F all []) as [F1 F2].
  destruct (conv_choices (s_conv s)) as [ch|].
  - destruct (fold_set_add (map fst ch) (fold_left f all [])) as [A B].
    split; [apply A, F1; constructor|]. intros i. rewrite B, F2. split.
    + intros [[[]|H]|H]; eauto.
    + intros [H|(ch' & [= <-] & H)]; auto.
  - split; [apply F1; constructor|]. intros i. rewrite F2. split.
    + intros [[]|H]; auto.
    + intros [H|(ch' & [= ] & H)]; auto.
Qed.

Definition branch (cc : string -> Z -> result codec) all (s : signal)
  : result (string * list (Z * codec)) :=
  let* bs := (if s_is_mux s then mapM (fun i => let* c := cc (s_name s) i in Ok (i, c)) (children_ids all s)
              else Ok []) in
  Ok (s_name s, bs).

Definition nonempty {A B} (e : A * list B) : bool := match snd e with [] => false | _ => true end.

Lemma mux_put_last m name bs i c :
  ~ In name (map fst m) -> ~ In i (map fst bs) ->
  mux_put (m ++ [(name, bs)]) name i c = m ++ [(name, bs ++ [(i, c)])].
Proof.
  intros Hm Hi. unfold mux_put.
  assert (G : sget (m ++ [(name, bs)]) name = Some bs).
  { rewrite get_app. apply (get_none _ sspec) in Hm. rewrite Hm. cbn. now rewrite String.eqb_refl. }
  rewrite G. rewrite (set_new _ zspec) by assumption.
  induction m as [|[k v] m IH]; cbn.
  - now rewrite String.eqb_refl.
  - cbn in Hm. destruct (String.eqb_spec k name) as [->|]; [exfalso; apply Hm; now left|].
    rewrite IH; [reflexivity|tauto|].
    cbn in G. destruct (String.eqb_spec k name); [contradiction|assumption].
Qed.

Lemma inner_fold (cc : Z -> result codec) name ids : forall m bs,
  NoDup (map fst bs ++ ids) -> ~ In name (map fst m) ->
  foldM (fun m i => let* c := cc i in Ok (mux_put m name i c)) ids (m ++ [(name, bs)]) =
  let* rs := mapM (fun i => let* c := cc i in Ok (i, c)) ids in Ok (m ++ [(name, bs ++ rs)]).
Proof.
  induction ids as [|i ids IH]; intros m bs ND Hm; cbn [foldM mapM].
  - cbn. now rewrite app_nil_r.
  - destruct (cc i) as [c|]; cbn [bind]; [|reflexivity].
    assert (N := NoDup_remove_2 _ _ _ ND). rewrite in_app_iff in N.
    rewrite mux_put_last by tauto. rewrite IH.
    + destruct (mapM _ ids); cbn [bind]; [|reflexivity]. now rewrite <- app_assoc.
    + rewrite map_app. cbn. rewrite <- app_assoc. exact ND.
    + assumption.
Qed.

Lemma inner_fold0 (cc : Z -> result codec) name ids m :
  NoDup ids -> ~ In name (map fst m) ->
  foldM (fun m i => let* c := cc i in Ok (mux_put m name i c)) ids m =
  let* rs := mapM (fun i => let* c := cc i in Ok (i, c)) ids in
  Ok (m ++ filter nonempty [(name, rs)]).
Proof.
  intros ND Hm. destruct ids as [|i ids]; cbn [foldM mapM].
  - cbn. now rewrite app_nil_r.
  - destruct (cc i) as [c|]; cbn [bind]; [|reflexivity].
    assert (E : mux_put m name i c = m ++ [(name, [(i, c)])]).
    { unfold mux_put. assert (G := Hm). apply (get_none _ sspec) in G. rewrite G.
      cbn. now rewrite (set_new _ sspec). }
    rewrite E. inversion ND; subst. rewrite inner_fold; [|now constructor|assumption].
    destruct (mapM _ ids); reflexivity.
Qed.

Lemma outer_fold (cc : string -> Z -> result codec) all here : forall m,
  NoDup (map fst m ++ map s_name here) ->
  foldM (fun m s =>
           if s_is_mux s then
             foldM (fun m i => let* c := cc (s_name s) i in Ok (mux_put m (s_name s) i c))
                   (children_ids all s) m
           else Ok m) here m =
  let* l := mapM (branch cc all) here in Ok (m ++ filter nonempty l).
Proof.
  induction here as [|s here IH]; intros m ND; cbn [foldM mapM map].
  - cbn. now rewrite app_nil_r.
  - cbn [map] in ND. assert (N := NoDup_remove_2 _ _ _ ND). rewrite in_app_iff in N.
    assert (ND1 := NoDup_remove_1 _ _ _ ND).
    unfold branch at 1. destruct (s_is_mux s); cbn [bind].
    + rewrite inner_fold0; [|apply children_ids_spec|tauto].
      destruct (mapM _ (children_ids all s)) as [rs|]; cbn [bind]; [|reflexivity].
      rewrite IH.
      * destruct (mapM (branch cc all) here) as [l|]; cbn [bind]; [|reflexivity].
        cbn [filter]. destruct (nonempty (s_name s, rs)); rewrite <- app_assoc; reflexivity.
      * rewrite map_app, <- app_assoc. cbn [filter].
        destruct (nonempty (s_name s, rs)); cbn; assumption.
    + rewrite IH by assumption.
      destruct (mapM (branch cc all) here) as [l|]; cbn [bind]; reflexivity.
Qed.

Lemma create_codec_eq f all n p mid :
  names_unique all ->
  create_codec (S f) all n p mid =
  let here := filter (belongs p mid) all in
  let* l := mapM (branch (fun name i => create_codec f all n (Some name) (Some i)) all) here in
  let* fm := create_formats here n in
  Ok (Codec here fm (filter nonempty l)).
Proof.
  intros U. cbn [create_codec]. rewrite (outer_fold (fun name i => create_codec f all n (Some name) (Some i)) all).
  - destruct (mapM _ _); reflexivity.
  - cbn. now apply NoDup_filter_map.
Qed.

Lemma Forall2_in_l {A B} (R : A -> B -> Prop) l l' x :
  Forall2 R l l' -> In x l -> exists y, In y l' /\ R x y.
Proof. induction 1; cbn; [contradiction|]. intros [->|]; [eauto|]. destruct IHForall2 as (y' & ? & ?); eauto. Qed.
Lemma Forall2_in_r {A B} (R : A -> B -> Prop) l l' y :
  Forall2 R l l' -> In y l' -> exists x, In x l /\ R x y.
Proof. induction 1; cbn; [contradiction|]. intros [->|]; [eauto|]. destruct IHForall2 as (x' & ? & ?); eauto. Qed.

Lemma branch_keys cc all here l :
  mapM (branch cc all) here = Ok l -> map fst l = map s_name here.
Proof.
  intros H. apply mapM_ok in H. induction H as [|s e here l HB H IH]; [reflexivity|]. cbn.
  unfold branch in HB. apply bind_ok in HB. destruct HB as (bs & _ & [= <-]). cbn. now f_equal.
Qed.

Lemma mapM_pair_keys (cc : Z -> result codec) ids bs :
  mapM (fun i => let* c := cc i in Ok (i, c)) ids = Ok bs ->
  map fst bs = ids /\ forall i c, In (i, c) bs -> cc i = Ok c.
Proof.
  intros H. apply mapM_ok in H. induction H as [|i e ids bs HB H [IH1 IH2]]; [split; [reflexivity|intros ? ? []]|].
  apply bind_ok in HB. destruct HB as (c & Hc & [= <-]). cbn. split; [now f_equal|].
  intros j c' [[= <- <-]|HI]; auto.
Qed.

Theorem create_codec_wfc f : forall all n p mid c,
  names_unique all -> create_codec f all n p mid = Ok c -> wfc all n p mid c.
Proof.
  induction f as [|f IH]; intros all n p mid c U H; [discriminate|].
  rewrite create_codec_eq in H by assumption. cbv zeta in H.
  apply bind_ok in H. destruct H as (l & HL & H).
  apply bind_ok in H. destruct H as (fm & HF & [= <-]).
  assert (KEYS := branch_keys _ _ _ _ HL).
  assert (NDH : NoDup (map s_name (filter (belongs p mid) all))) by now apply NoDup_filter_map.
  apply mapM_ok in HL.
  assert (DET : forall name bs, In (name, bs) l -> bs <> [] ->
     exists m, In m (filter (belongs p mid) all) /\ s_name m = name /\ s_is_mux m = true /\
       mapM (fun i => let* c := create_codec f all n (Some (s_name m)) (Some i) in Ok (i, c)) (children_ids all m) = Ok bs).
  { intros name bs HI NE. destruct (Forall2_in_r _ _ _ _ HL HI) as (m & Hm & HB).
    unfold branch in HB. apply bind_ok in HB. destruct HB as (bs' & HB & [= <- <-]).
    exists m. destruct (s_is_mux m); [auto|]. injection HB as <-. contradiction. }
  assert (INM : forall name bs, In (name, bs) (filter nonempty l) -> In (name, bs) l /\ bs <> []).
  { intros name bs HI. apply filter_In in HI. destruct HI as [HI E]. split; [assumption|].
    intros ->. discriminate. }
  constructor.
  - assumption.
  - apply NoDup_filter_map. rewrite KEYS. assumption.
  - intros name bs HI. apply INM in HI. destruct HI as [HI NE].
    destruct (DET _ _ HI NE) as (m & Hm & En & Em & HM).
    destruct (mapM_pair_keys _ _ _ HM) as [K _].
    exists m. repeat split; auto. rewrite <- K. destruct bs; [contradiction|discriminate].
  - intros m Hm Em NE. destruct (Forall2_in_l _ _ _ _ HL Hm) as (e & He & HB).
    unfold branch in HB. apply bind_ok in HB. destruct HB as (bs & HB & [= <-]). rewrite Em in HB.
    exists bs. apply filter_In. split; [assumption|].
    destruct (mapM_pair_keys _ _ _ HB) as [K _]. unfold nonempty. cbn.
    destruct bs; [|reflexivity]. cbn in K. congruence.
  - intros name bs i c HI HC. apply INM in HI. destruct HI as [HI NE].
    destruct (DET _ _ HI NE) as (m & Hm & En & Em & HM). subst name.
    destruct (mapM_pair_keys _ _ _ HM) as [_ K]. eapply IH; eauto.
Qed.

(** The signal of a name. *)
Lemma get_signal_in all s : names_unique all -> In s all -> get_signal all (s_name s) = Ok s.
Proof.
  intros U HI. unfold get_signal, sget_exn, signal_dict.
  assert (E : forall l d, fold_left (fun d s => sset d (s_name s) s) l d = supdate d (map (fun s => (s_name s, s)) l)).
  { induction l as [|x l IH]; intros d; [reflexivity|]. cbn. apply IH. }
  rewrite E. rewrite (get_upd _ sspec) by (rewrite map_map; exact U).
  rewrite (assoc_signals all (fun s => s) s) by assumption. reflexivity.
Qed.

Lemma get_signal_inv all name s : names_unique all -> get_signal all name = Ok s -> In s all /\ s_name s = name.
Proof.
  intros U. unfold get_signal, sget_exn, signal_dict.
  assert (E : forall l d, fold_left (fun d s => sset d (s_name s) s) l d = supdate d (map (fun s => (s_name s, s)) l)).
  { induction l as [|x l IH]; intros d; [reflexivity|]. cbn. apply IH. }
  rewrite E. rewrite (get_upd _ sspec) by (rewrite map_map; exact U). cbn.
  destruct (sget (map (fun s => (s_name s, s)) all) name) as [t|] eqn:G; [|discriminate].
  intros [= <-]. apply (get_in _ sspec) in G. apply in_map_iff in G. destruct G as (x & [= <- <-] & HI). auto.
Qed.

(** ** Selected signals are the active ones *)
Lemma belongs_iff p mid s :
  belongs p mid s = true <->
  s_mux_sig s = p /\ match mid with
                     | None => True
                     | Some i => exists ids, s_mux_ids s = Some ids /\ In i ids
                     end.
Proof.
  unfold belongs. rewrite andb_true_iff.
  assert (option_eqb String.eqb (s_mux_sig s) p = true <-> s_mux_sig s = p) as ->.
  { destruct (s_mux_sig s) as [a|], p as [b|]; cbn; try (split; congruence).
    destruct (String.eqb_spec a b); split; congruence. }
  destruct mid as [i|]; [|tauto].
  destruct (s_mux_ids s) as [ids|].
  - unfold zmem. rewrite existsb_exists. split.
    + intros [H (x & Hx & E)]. split; [assumption|]. exists ids. split; [reflexivity|].
      assert (i = x) by lia. now subst.
    + intros [H (ids' & [= <-] & Hi)]. split; [assumption|]. exists i. split; [assumption|lia].
  - split; [intros [_ [= ]]|]. intros [_ (ids & [= ] & _)].
Qed.

Inductive desc (all : list signal) (mv : string -> option Z) : option string -> option Z -> signal -> Prop :=
| desc_here p mid s : In s all -> belongs p mid s = true -> desc all mv p mid s
| desc_down p mid m v s :
    In m all -> belongs p mid m = true -> s_is_mux m = true -> mv (s_name m) = Some v ->
    desc all mv (Some (s_name m)) (Some v) s -> desc all mv p mid s.

Lemma sel_list_desc all n mv p mid c :
  names_unique all -> wfc all n p mid c -> forall s, In s (sel_list mv c) <-> desc all mv p mid s.
Proof.
  intros U W s. split.
  - induction W as [p mid fm muxes HF ND SH CO SUB IH]. intros HI. apply sel_list_in in HI.
    destruct HI as [HI|(m & bs & v & c' & Hm & E1 & E2 & E3 & HI)].
    + apply filter_In in HI. apply desc_here; tauto.
    + apply (get_in _ sspec) in E1. apply (get_in _ zspec) in E3.
      destruct (SH _ _ E1) as (m' & Hm' & En & Em & _).
      apply filter_In in Hm, Hm'. 
      assert (m' = m) by (apply (NoDup_map_inj s_name all); tauto). subst m'.
      apply desc_down with m v; try tauto. eapply IH; eauto.
  - intros D. revert c W. induction D as [p mid s Hs HB|p mid m v s Hm HB Em Ev D IH]; intros c W.
    + inversion W; subst. apply sel_list_in. left. now apply filter_In.
    + inversion W as [p0 mid0 fm muxes HF ND SH CO SUB]; subst. apply sel_list_in. right.
      assert (HmF : In m (filter (belongs p mid) all)) by now apply filter_In.
      assert (HV : In v (children_ids all m)).
      { apply children_ids_spec. left.
        assert (exists t, In t all /\ belongs (Some (s_name m)) (Some v) t = true) as (t & Ht & HBt).
        { inversion D; subst; eauto. }
        apply belongs_iff in HBt. destruct HBt as (E1 & ids & E2 & E3). eauto 6. }
      destruct (CO m HmF Em) as [bs Hbs]; [intros E; now rewrite E in HV|].
      destruct (SH _ _ Hbs) as (m' & Hm' & En & _ & K & _).
      assert (m' = m).
      { apply filter_In in HmF, Hm'. apply (NoDup_map_inj s_name all); tauto. } subst m'.
      rewrite <- K in HV. apply (get_in_keys _ zspec) in HV. destruct HV as [c' Hc'].
      exists m, bs, v, c'. repeat split; auto.
      * now apply (in_get _ sspec).
      * apply IH. apply (get_in _ zspec) in Hc'. eapply SUB; eauto.
Qed.

Lemma desc_snoc all mv p mid m v s :
  desc all mv p mid m -> In s all -> s_is_mux m = true -> mv (s_name m) = Some v ->
  belongs (Some (s_name m)) (Some v) s = true -> desc all mv p mid s.
Proof.
  intros D Hs Em Ev HB. induction D as [p mid m Hm HBm|p mid m0 v0 m Hm0 HB0 Em0 Ev0 D IH].
  - apply desc_down with m v; auto. now apply desc_here.
  - apply desc_down with m0 v0; auto.
Qed.

Lemma desc_active all mv s : desc all mv None None s <-> active all mv s.
Proof.
  split.
  - assert (G : forall p mid s, desc all mv p mid s ->
              (forall t, In t all -> belongs p mid t = true -> active all mv t) -> active all mv s).
    { induction 1 as [p mid s' Hs HB|p mid m v s' Hm HB Em Ev D IH]; intros H; [auto|].
      apply IH. intros t Ht HBt. apply belongs_iff in HBt. destruct HBt as (E1 & ids & E2 & E3).
      apply active_child with m v ids; auto. }
    intros D. apply (G _ _ _ D). intros t Ht HB. apply belongs_iff in HB. apply active_root; tauto.
  - induction 1 as [s Hs HN|s m v ids Hs Hm A IH Em Ev Ei Hv].
    + apply desc_here; [assumption|]. apply belongs_iff. auto.
    + apply desc_snoc with m v; auto. apply belongs_iff. eauto.
Qed.

Theorem sel_list_active all n mv c :
  names_unique all -> wfc all n None None c ->
  forall s, In s (sel_list mv c) <-> active all mv s.
Proof. intros U W s. rewrite (sel_list_desc _ _ _ _ _ _ U W). apply desc_active. Qed.

(** ** Every node codable *)
Inductive codec_ok (n : Z) : codec -> Prop :=
| codec_ok_intro sigs fm muxes :
    node_ok n sigs -> create_formats sigs n = Ok fm ->
    (forall name bs i c, In (name, bs) muxes -> In (i, c) bs -> codec_ok n c) ->
    codec_ok n (Codec sigs fm muxes).

(** ** Soundness of the strict check *)
Definition le_sorted (all : list signal) : Prop :=
  StronglySorted (fun a b => s_start a <= s_start b) (filter little all).

Definition check_codec all c bits := check_tree all (create_signal_tree c) bits.

Lemma merge_bits_spec : forall acc cb, List.length acc = List.length cb ->
  List.length (merge_bits acc cb) = List.length acc /\
  forall i, is_some (nth i (merge_bits acc cb) None) = is_some (nth i acc None) || is_some (nth i cb None).
Proof.
  induction acc as [|a acc IH]; intros [|c cb] H; cbn in H; try lia.
  - split; [reflexivity|]. intros []; reflexivity.
  - destruct (IH cb) as [L N]; [lia|]. cbn. split; [lia|].
    intros [|i]; [|apply N]. destruct c, a; reflexivity.
Qed.

Lemma merge_occ acc cb n : zlen acc = 8 * n -> zlen cb = 8 * n ->
  zlen (merge_bits acc cb) = 8 * n /\ forall j, occ (merge_bits acc cb) j = occ acc j || occ cb j.
Proof.
  intros H1 H2. destruct (merge_bits_spec acc cb) as [L N]; [unfold zlen in *; lia|].
  split; [unfold zlen in *; lia|]. intros j. apply N.
Qed.

(** What a successful check of part of the tree says about the signals [L] it selects. *)
Record cleared (n : Z) (bits bits' : list obit) (L : list signal) : Prop := {
  cl_fits : forall s, In s L -> sig_fits n s;
  cl_free : forall s b, In s L -> occupies s b -> occ bits (net b) = false;
  cl_used : forall s b, In s L -> occupies s b -> occ bits' (net b) = true;
  cl_disj : forall s t, In s L -> In t L -> s <> t -> sig_disjoint s t
}.

Lemma check_codec_sound all n p mid c :
  0 <= n -> names_unique all -> (forall s, In s all -> 0 < s_length s) ->
  (forall s, In s all -> 0 <= s_start s) -> le_sorted all ->
  wfc all n p mid c ->
  forall bits bits', zlen bits = 8 * n -> check_codec all c bits = Ok bits' ->
    zlen bits' = 8 * n /\ codec_ok n c /\
    (forall j, occ bits j = true -> occ bits' j = true) /\
    (forall mv, cleared n bits bits' (sel_list mv c)).
Proof.
  intros Hn U LP SP LS W. induction W as [p mid fm muxes HF ND SH CO SUB IH].
  intros bits bits' HL HC. unfold check_codec in HC. rewrite signal_tree_eq, check_tree_eq in HC.
  set (here := filter (belongs p mid) all) in *.
  assert (HIN : forall s, In s here -> In s all) by (intros s Hs; apply filter_In in Hs; tauto).
  (* the loop over a suffix of the node's signals *)
  assert (LOOP : forall sigs bits bits', (forall s, In s sigs -> In s here) -> zlen bits = 8 * n ->
     foldM (check_item all)
       (map (fun s => (s_name s, option_map (map (fun ic => (fst ic, create_signal_tree (snd ic)))) (sget muxes (s_name s)))) sigs)
       bits = Ok bits' ->
     zlen bits' = 8 * n /\ (forall j, occ bits j = true -> occ bits' j = true) /\
     (forall s bs i c, In s sigs -> sget muxes (s_name s) = Some bs -> In (i, c) bs -> codec_ok n c) /\
     (forall mv, cleared n bits bits' (flat_map (fun s => s :: sel_sub mv muxes s) sigs))).
  { clear bits bits' HL HC. induction sigs as [|s sigs IHs]; intros bits bits' HS HL HC; cbn [map foldM] in HC.
    { injection HC as <-. split; [assumption|]. split; [auto|]. split; [intros ? ? ? ? []|].
      intros mv. split; cbn; intros; contradiction. }
    apply bind_ok in HC. destruct HC as (b2 & HI & HC).
    unfold check_item in HI. cbn [fst snd] in HI.
    rewrite get_signal_in in HI; [|assumption|apply HIN, HS; now left].
    cbn [bind] in HI. apply bind_ok in HI. destruct HI as (b1 & HB1 & HI).
    assert (Hsall : In s all) by (apply HIN, HS; now left).
    destruct (check_signal_spec n bits s Hn HL (LP _ Hsall) (SP _ Hsall)) as [CS1 CS2].
    destruct (proj1 CS1 (ex_intro _ _ HB1)) as [SF SFREE].
    destruct (CS2 _ HB1) as [L1 O1].
    assert (M1 : forall j, occ bits j = true -> occ b1 j = true).
    { intros j Hj. destruct (Z.lt_ge_cases j (8 * n)) as [Hlt|Hge].
      - destruct (Z.lt_ge_cases j 0) as [Hneg|Hpos].
        + assert (E0 : forall l, occ l j = occ l 0) by (intros l; unfold occ; now replace (Z.to_nat j) with (Z.to_nat 0) by lia).
          rewrite E0 in *. destruct (Z.eq_dec n 0) as [->|].
          * unfold occ in Hj. rewrite nth_overflow in Hj; [discriminate|unfold zlen in *; lia].
          * rewrite O1 by lia. rewrite Hj. apply orb_true_r.
        + rewrite O1 by lia. rewrite Hj. apply orb_true_r.
      - unfold occ in Hj. rewrite nth_overflow in Hj; [discriminate|unfold zlen in *; lia]. }
    assert (U1 : forall b, occupies s b -> occ b1 (net b) = true).
    { intros b Hb. assert (0 <= b < 8 * n) by now apply SF.
      rewrite O1 by (apply -> net_range; assumption). rewrite net_invol.
      apply occb_iff in Hb. now rewrite Hb. }
    (* the children *)
    assert (KIDS : zlen b2 = 8 * n /\ (forall j, occ b1 j = true -> occ b2 j = true) /\
       (forall bs i c, sget muxes (s_name s) = Some bs -> In (i, c) bs -> codec_ok n c) /\
       forall mv, cleared n b1 b2 (sel_sub mv muxes s)).
    { unfold sel_sub. destruct (sget muxes (s_name s)) as [bs|] eqn:EG; cbn [option_map] in HI.
      2:{ injection HI as <-. split; [assumption|]. split; [auto|]. split; [discriminate|].
          intros mv; split; cbn; intros; contradiction. }
      assert (HBS := EG). apply (get_in _ sspec) in HBS.
      assert (KL : forall cs acc r, (forall i c, In (i, c) cs -> In (i, c) bs) -> zlen acc = 8 * n ->
        foldM (fun acc c => let* cb := check_tree all (snd c) b1 in Ok (merge_bits acc cb))
          (map (fun ic => (fst ic, create_signal_tree (snd ic))) cs) acc = Ok r ->
        zlen r = 8 * n /\ (forall j, occ acc j = true -> occ r j = true) /\
        forall i c, In (i, c) cs -> codec_ok n c /\
          forall mv, cleared n b1 r (sel_list mv c)).
      { clear HI. induction cs as [|[i c] cs IHc]; intros acc r HCS LA HK; cbn [map foldM] in HK.
        - injection HK as <-. split; [assumption|]. split; [auto|]. intros ? ? [].
        - apply bind_ok in HK. destruct HK as (acc' & HA & HK). cbn [snd fst] in HA.
          apply bind_ok in HA. destruct HA as (cb & HCB & [= <-]).
          destruct (IH _ _ i c HBS (HCS _ _ (or_introl eq_refl)) b1 cb L1 HCB) as (LC & OKC & MC & CC).
          destruct (merge_occ acc cb n LA LC) as [LM OM].
          destruct (IHc (merge_bits acc cb) r) as (LR & MR & CR); [intros; apply HCS; now right|assumption|assumption|].
          split; [assumption|]. split; [intros j Hj; apply MR; rewrite OM, Hj; reflexivity|].
          intros i' c' [[= <- <-]|HI]; [|eapply CR; eauto].
          split; [assumption|]. intros mv. destruct (CC mv) as [A1 A2 A3 A4]. split; auto.
          intros s' b Hs' Hb. apply MR. rewrite OM, (A3 s' b) by assumption. apply orb_true_r. }
      destruct (KL bs b1 b2) as (LR & MR & CR); [auto|assumption|assumption|].
      split; [assumption|]. split; [assumption|]. split.
      - intros bs' i c [= <-] HIc. now apply (CR i c).
      - intros mv. destruct (mv (s_name s)) as [m|]; [|split; cbn; intros; contradiction].
        destruct (zget bs m) as [c'|] eqn:EZ; [|split; cbn; intros; contradiction].
        apply (get_in _ zspec) in EZ. apply (CR _ _ EZ). }
    destruct KIDS as (L2 & M2 & CK & CL2).
    destruct (IHs b2 bits') as (L3 & M3 & CK3 & CL3); [intros; apply HS; now right|assumption|assumption|].
    split; [assumption|]. split; [auto|]. split.
    { intros t bs i c [<-|Ht]; [apply CK|now apply CK3]. }
    intros mv. specialize (CL2 mv). specialize (CL3 mv). cbn [flat_map].
    destruct CL2 as [A1 A2 A3 A4], CL3 as [B1 B2 B3 B4].
    assert (NF : forall l b, occ l b = true -> occ l b = false -> False) by congruence.
    assert (D12 : forall t, In t (sel_sub mv muxes s) -> sig_disjoint s t).
    { intros t Ht b Ob Tb. eapply NF; [apply (U1 b Ob)|]. eapply A2; eauto. }
    assert (D13 : forall t, In t (flat_map (fun s => s :: sel_sub mv muxes s) sigs) -> sig_disjoint s t).
    { intros t Ht b Ob Tb. eapply NF; [apply M2, (U1 b Ob)|]. eapply B2; eauto. }
    assert (D23 : forall u t, In u (sel_sub mv muxes s) -> In t (flat_map (fun s => s :: sel_sub mv muxes s) sigs) -> sig_disjoint u t).
    { intros u t Hu Ht b Ub Tb. eapply NF; [apply (A3 u b Hu Ub)|]. eapply B2; eauto. }
    assert (SYM : forall a b, sig_disjoint a b -> sig_disjoint b a) by (intros a b D x X1 X2; exact (D x X2 X1)).
    split.
    - intros t [<-|Ht]; [assumption|]. apply in_app_iff in Ht. destruct Ht; auto.
    - intros t b [<-|Ht] Hb; [now apply SFREE|]. apply in_app_iff in Ht. destruct Ht as [Ht|Ht].
      + destruct (occ bits (net b)) eqn:E; [|reflexivity]. apply M1 in E. rewrite (A2 t b) in E by assumption. discriminate.
      + destruct (occ bits (net b)) eqn:E; [|reflexivity]. apply M1, M2 in E. rewrite (B2 t b) in E by assumption. discriminate.
    - intros t b [<-|Ht] Hb; [now apply M3, M2, U1|]. apply in_app_iff in Ht. destruct Ht as [Ht|Ht].
      + apply M3. now apply (A3 t).
      + now apply (B3 t).
    - intros a b [<-|Ha] [<-|Hb] N; try congruence.
      + apply in_app_iff in Hb. destruct Hb; auto.
      + apply in_app_iff in Ha. destruct Ha; auto.
      + apply in_app_iff in Ha, Hb. destruct Ha, Hb; auto. }
  destruct (LOOP here bits bits') as (L' & M' & CK' & CL'); auto.
  split; [assumption|]. split; [|split; [assumption|]].
  - constructor; [|assumption|].
    + destruct (CL' (fun _ => None)) as [C1 C2 C3 C4].
      assert (INF : forall s, In s here -> In s (flat_map (fun s => s :: sel_sub (fun _ => None) muxes s) here)).
      { intros s Hs. apply in_flat_map. exists s. split; [assumption|now left]. }
      split; auto.
      * apply NoDup_filter_map. exact U.
      * unfold here. assert (E : filter little (filter (belongs p mid) all) = filter (belongs p mid) (filter little all)).
        { clear. induction all as [|x l IH]; [reflexivity|]. cbn.
          destruct (belongs p mid x) eqn:E1, (little x) eqn:E2; cbn; rewrite ?E1, ?E2; congruence. }
        rewrite E. now apply StronglySorted_filter.
    + intros name bs i c HI HC'. destruct (SH _ _ HI) as (m & Hm & En & _). subst name.
      apply (CK' m bs i c); auto. now apply (in_get _ sspec).
  - intros mv. rewrite sel_list_eq. apply CL'.
Qed.
