(** Prop_Invert: property C37, the inverted signal tree. *)
From Verif Require Import Base PyNum Conversion Signal Formats Message LayoutSpec DictLemmas NodeProofs TreeProofs
     CodecSpec Container Database Tester Examples.

(** ** Specification: the ways from the root of a signal tree to a leaf.  A way is the list of the
    (multiplexer, id) pairs that are passed. *)
Fixpoint ways (t : stree) : list (list (string * Z) * string) :=
  match t with
  | STree nodes =>
      (fix go (ns : list (string * option (list (Z * stree)))) :=
         match ns with
         | [] => []
         | (n, None) :: r => ([], n) :: go r
         | (n, Some cs) :: r =>
             (fix kids (cs : list (Z * stree)) :=
                match cs with
                | [] => []
                | (i, t') :: cr => map (fun w => ((n, i) :: fst w, snd w)) (ways t') ++ kids cr
                end) cs ++ go r
         end) nodes
  end.

(** The ways that lead to the signal [n], in the order of the tree *)
Definition ways_to (n : string) (t : stree) : list (list (string * Z)) :=
  map fst (filter (fun w => String.eqb (snd w) n) (ways t)).

(** ** Trees *)

Definition all_kids (P : stree -> Prop) (nd : string * option (list (Z * stree))) : Prop :=
  match snd nd with None => True | Some cs => Forall (fun c => P (snd c)) cs end.
Definition stree_forall (P : stree -> Prop) (H : forall nodes, Forall (all_kids P) nodes -> P (STree nodes)) : forall t, P t :=
  fix IH (t : stree) : P t :=
    match t with
    | STree nodes =>
        H nodes ((fix go ns : Forall (all_kids P) ns :=
                    match ns with
                    | [] => Forall_nil _
                    | (n, o) :: r =>
                        Forall_cons (n, o)
                          (match o return all_kids P (n, o) with
                           | None => I
                           | Some cs => (fix kids cs : Forall (fun c => P (snd c)) cs :=
                                           match cs with
                                           | [] => Forall_nil _
                                           | (i, t') :: cr => Forall_cons (i, t') (IH t') (kids cr)
                                           end) cs
                           end) (go r)
                    end) nodes)
    end.
Lemma stree_induction (P : stree -> Prop) :
  (forall nodes, (forall n cs i t, In (n, Some cs) nodes -> In (i, t) cs -> P t) -> P (STree nodes)) -> forall t, P t.
Proof.
  intros H. apply stree_forall. intros nodes F. apply H. intros n cs i t HI HJ.
  rewrite Forall_forall in F. specialize (F _ HI). cbn in F. rewrite Forall_forall in F. exact (F _ HJ).
Qed.

Lemma ways_eq nodes : ways (STree nodes) =
  flat_map (fun nd => match snd nd with
                      | None => [([], fst nd)]
                      | Some cs => flat_map (fun c => map (fun w => ((fst nd, fst c) :: fst w, snd w)) (ways (snd c))) cs
                      end) nodes.
Proof.
  cbn [ways]. induction nodes as [|[n [cs|]] nodes IH]; [reflexivity| |].
  - cbn [flat_map fst snd]. rewrite <- IH. f_equal. clear IH. induction cs as [|[i t] cs IHc]; [reflexivity|].
    cbn [flat_map fst snd]. rewrite <- IHc. reflexivity.
  - cbn [flat_map fst snd]. rewrite <- IH. reflexivity.
Qed.

Definition add_way (cur : settings) (r : inverted) (w : list (string * Z) * string) : inverted :=
  inv_add r (snd w) (supdate cur (fst w)).

Lemma invert_ways t : forall cur ret, invert t cur ret = fold_left (add_way cur) (ways t) ret.
Proof.
  induction t as [nodes IH] using stree_induction. intros cur ret. rewrite ways_eq. cbn [invert].
  revert ret. induction nodes as [|[n [cs|]] nodes IHn]; intros ret; [reflexivity| |].
  - cbn [flat_map fst snd]. rewrite fold_left_app. rewrite IHn by (intros; eapply IH; [right|]; eauto). f_equal.
    assert (IHc : forall i t, In (i, t) cs -> forall cur ret, invert t cur ret = fold_left (add_way cur) (ways t) ret)
      by (intros i t Hi; eapply IH; [now left|exact Hi]).
    clear IHn IH. revert ret. induction cs as [|[i t] cs IHs]; intros ret; [reflexivity|].
    cbn [flat_map fst snd]. rewrite fold_left_app. rewrite <- IHs by (intros; eapply IHc; right; eauto). f_equal.
    rewrite (IHc i t) by now left. generalize (ways t). clear. intros l. revert ret.
    induction l as [|[p x] l IH]; intros ret; [reflexivity|]. cbn [map fold_left fst snd]. rewrite <- IH. reflexivity.
  - cbn [flat_map fst snd app fold_left]. apply IHn. intros; eapply IH; [right|]; eauto.
Qed.

Lemma get_ways l : forall ret n, sget (fold_left (add_way []) l ret) n =
  match sget ret n, map (fun w => supdate [] (fst w)) (filter (fun w => String.eqb (snd w) n) l) with
  | None, [] => None
  | None, s => Some s
  | Some r, s => Some (r ++ s)
  end.
Proof.
  induction l as [|[p x] l IH]; intros ret n; cbn [fold_left filter map].
  - destruct (sget ret n); [now rewrite app_nil_r|reflexivity].
  - rewrite IH. unfold add_way, inv_add at 1. cbn [fst snd]. rewrite (get_set _ sspec).
    destruct (String.eqb_spec x n) as [->|NE]; cbn [map fst].
    + destruct (sget ret n) as [r|]; cbn [app]; [now rewrite <- app_assoc|reflexivity].
    + reflexivity.
Qed.

(** ** C37, any signal tree: the settings listed for a signal are the ways that lead to it *)
Theorem C37_ways t n :
  (forall w, In w (ways_to n t) -> NoDup (map fst w)) ->
  sget (invert_signal_tree t) n = match ways_to n t with [] => None | l => Some l end.
Proof.
  intros ND. unfold invert_signal_tree. rewrite invert_ways, get_ways. cbn [dget].
  assert (E : map (fun w => supdate [] (fst w)) (filter (fun w => String.eqb (snd w) n) (ways t)) = ways_to n t).
  { unfold ways_to in *. revert ND. induction (filter (fun w => String.eqb (snd w) n) (ways t)) as [|w l IH]; intros ND; [reflexivity|].
    cbn [map]. rewrite IH by (intros; apply ND; now right). f_equal.
    apply (upd_app _ sspec (fst w) []). cbn. apply ND. now left. }
  rewrite E. reflexivity.
Qed.

(** ** C37 for the signal tree of a message *)

Inductive leads : stree -> list (string * Z) -> string -> Prop :=
| leads_leaf nodes n : In (n, None) nodes -> leads (STree nodes) [] n
| leads_down nodes m cs i t w n : In (m, Some cs) nodes -> In (i, t) cs -> leads t w n -> leads (STree nodes) ((m, i) :: w) n.

Lemma leads_ways t : forall w n, In w (ways_to n t) <-> leads t w n.
Proof.
  assert (G : forall w n, In w (ways_to n t) <-> In (w, n) (ways t)).
  { intros w n. unfold ways_to. rewrite in_map_iff. split.
    - intros ([p x] & <- & HI). apply filter_In in HI. destruct HI as [HI E]. apply String.eqb_eq in E. cbn in *. now subst.
    - intros HI. exists (w, n). split; [reflexivity|]. apply filter_In. split; [exact HI|]. apply String.eqb_refl. }
  intros w n. rewrite G. clear G. revert w n. induction t as [nodes IH] using stree_induction. intros w n.
  rewrite ways_eq, in_flat_map. split.
  - intros ([m [cs|]] & HI & HW); cbn [fst snd] in HW.
    + apply in_flat_map in HW. destruct HW as ([i t] & HJ & HW). apply in_map_iff in HW. destruct HW as ([p x] & [= <- <-] & HW).
      cbn [fst snd] in *. eapply leads_down; eauto. eapply IH; eauto.
    + destruct HW as [[= <- <-]|[]]. now apply leads_leaf.
  - intros L. inversion L as [ns x HI|ns m cs i t p x HI HJ HL]; subst.
    + exists (n, None). split; [exact HI|]. cbn. now left.
    + exists (m, Some cs). split; [exact HI|]. cbn [fst snd]. apply in_flat_map. exists (i, t). split; [exact HJ|].
      apply in_map_iff. exists (p, n). split; [reflexivity|]. eapply IH; eauto.
Qed.

(** Each multiplexer on a way is a child of the one before. *)
Inductive chain (parent : string -> option string) : option string -> list string -> Prop :=
| chain_nil p : chain parent p []
| chain_cons p m r : parent m = p -> chain parent (Some m) r -> chain parent p (m :: r).

Lemma chain_app parent a b : forall p, chain parent p (a ++ b) -> chain parent p a.
Proof. induction a as [|x a IH]; intros p H; [constructor|]. inversion H; subst. constructor; auto. Qed.
Lemma chain_last parent a m : forall p, chain parent p (a ++ [m]) -> parent m = match rev a with [] => p | x :: _ => Some x end.
Proof.
  induction a as [|x a IH]; intros p H; inversion H as [|? ? ? EP CH]; subst; cbn [rev app]; [reflexivity|].
  rewrite (IH (Some x)) by assumption. destruct (rev a) as [|y l] eqn:E; reflexivity.
Qed.
Lemma chain_unique parent : forall a b m, chain parent None (a ++ [m]) -> chain parent None (b ++ [m]) -> a = b.
Proof.
  induction a as [|x a IH] using rev_ind; intros b m HA HB.
  - apply chain_last in HA. apply chain_last in HB. destruct b as [|y b _] using rev_ind; [reflexivity|].
    rewrite rev_app_distr in HB. cbn in *. congruence.
  - pose proof HA as HA'. pose proof HB as HB'. apply chain_last in HA'. apply chain_last in HB'.
    rewrite rev_app_distr in HA'. cbn in HA'.
    destruct b as [|y b _] using rev_ind; [cbn in HB'; congruence|].
    rewrite rev_app_distr in HB'. cbn in HB'. assert (x = y) by congruence. subst y.
    f_equal. apply (IH b x); eapply chain_app; eauto.
Qed.
Lemma chain_nodup parent l : chain parent None l -> NoDup l.
Proof.
  intros H. assert (G : forall a m b, l = a ++ m :: b -> ~ In m a).
  { intros a m b -> HI. apply in_split in HI. destruct HI as (a1 & a2 & ->).
    assert (C1 : chain parent None (a1 ++ [m])).
    { replace ((a1 ++ m :: a2) ++ m :: b) with ((a1 ++ [m]) ++ a2 ++ m :: b) in H by now rewrite <- !app_assoc. eapply chain_app; eauto. }
    assert (C2 : chain parent None ((a1 ++ m :: a2) ++ [m])).
    { replace ((a1 ++ m :: a2) ++ m :: b) with (((a1 ++ m :: a2) ++ [m]) ++ b) in H by now rewrite <- !app_assoc. eapply chain_app; eauto. }
    pose proof (chain_unique _ _ _ _ C1 C2) as E. apply (f_equal (@List.length _)) in E. rewrite app_length in E. cbn in E. lia. }
  clear H. rewrite <- (rev_involutive l). apply NoDup_rev. 
  assert (G' : forall a m b, rev l = b ++ m :: a -> ~ In m a).
  { intros a m b E HI. apply (f_equal (@rev _)) in E. rewrite rev_involutive, rev_app_distr in E. cbn in E.
    rewrite <- app_assoc in E. apply (G _ _ _ E). now apply -> in_rev. }
  clear G. induction (rev l) as [|x r IH]; constructor.
  - apply (G' r x []). reflexivity.
  - apply IH. intros a m b ->. apply (G' a m (x :: b)). reflexivity.
Qed.

Definition parent_of (all : list signal) (n : string) : option string :=
  match get_signal all n with Ok s => s_mux_sig s | Err _ => None end.

(** The multiplexer has branches. *)
Definition branching (all : list signal) (s : signal) : Prop := s_is_mux s = true /\ children_ids all s <> [].

Lemma sat_app (mv : string -> option Z) m i w : (forall k v, In (k, v) ((m, i) :: w) -> mv k = Some v) <->
  mv m = Some i /\ forall k v, In (k, v) w -> mv k = Some v.
Proof.
  split.
  - intros H. split; [apply H; now left|]. intros; apply H; now right.
  - intros [H1 H2] k v [[= <- <-]|HI]; auto.
Qed.

Lemma leads_wfc all n p mid c : names_unique all -> wfc all n p mid c -> forall w x,
  leads (create_signal_tree c) w x ->
  chain (parent_of all) p (map fst w) /\
  exists s, In s all /\ s_name s = x /\ ~ branching all s /\
    forall mv, (forall k v, In (k, v) w -> mv k = Some v) -> desc all mv p mid s.
Proof.
  intros U W. induction W as [p mid fm muxes HF ND SH CO SUB IH]. intros w x L. rewrite signal_tree_eq in L.
  inversion L as [ns y HI|ns m cs i t w' y HI HJ HL]; subst.
  - split; [constructor|]. apply in_map_iff in HI. destruct HI as (s & [= E1 E2] & HI).
    apply filter_In in HI. destruct HI as [HI HB]. exists s. split; [exact HI|]. split; [exact E1|]. split.
    + intros [M NE]. destruct (CO s) as [bs Hbs]; [apply filter_In; auto|exact M|exact NE|].
      apply (in_get _ sspec) in Hbs; [|exact ND]. rewrite Hbs in E2. discriminate.
    + intros mv _. now apply desc_here.
  - apply in_map_iff in HI. destruct HI as (s & [= E1 E2] & HI). apply filter_In in HI. destruct HI as [HI HB].
    destruct (sget muxes (s_name s)) as [bs|] eqn:G; [|discriminate]. cbn in E2. injection E2 as <-.
    apply in_map_iff in HJ. destruct HJ as ([j c] & [= <- <-] & HJ). cbn [fst snd] in *.
    pose proof (get_in _ sspec _ _ _ G) as HIM.
    destruct (IH _ _ _ _ HIM HJ _ _ HL) as (CH & s' & H1 & H2 & H3 & H4). subst m.
    destruct (SH _ _ HIM) as (s0 & Hs0 & En & Em & _). apply filter_In in Hs0. destruct Hs0 as [Hs0 _].
    assert (s0 = s) by (apply (NoDup_map_inj s_name all); auto). subst s0.
    split.
    + cbn [map fst]. constructor; [|exact CH]. unfold parent_of. rewrite (get_signal_in all s) by assumption.
      apply belongs_iff in HB. tauto.
    + exists s'. split; [exact H1|]. split; [exact H2|]. split; [exact H3|]. intros mv SAT.
      apply sat_app in SAT. destruct SAT as [S1 S2]. eapply desc_down; eauto.
Qed.

Lemma desc_leads all n p mid c mv s : names_unique all -> wfc all n p mid c -> desc all mv p mid s -> ~ branching all s ->
  exists w, leads (create_signal_tree c) w (s_name s) /\ forall k v, In (k, v) w -> mv k = Some v.
Proof.
  intros U W D NB. revert c W. induction D as [p mid s HI HB|p mid m v s Hm HB Em Ev D IH]; intros c W.
  - inversion W as [p0 mid0 fm muxes HF ND SH CO SUB]; subst. rewrite signal_tree_eq. exists []. split; [|intros ? ? []].
    apply leads_leaf. apply in_map_iff. exists s. split; [|now apply filter_In].
    destruct (sget muxes (s_name s)) as [bs|] eqn:G; [|reflexivity]. exfalso. apply NB.
    apply (get_in _ sspec) in G. destruct (SH _ _ G) as (s0 & Hs0 & En & Em & _ & NE). apply filter_In in Hs0.
    assert (s0 = s) by (apply (NoDup_map_inj s_name all); tauto). subst s0. split; assumption.
  - inversion W as [p0 mid0 fm muxes HF ND SH CO SUB]; subst.
    assert (HmF : In m (filter (belongs p mid) all)) by now apply filter_In.
    assert (HV : In v (children_ids all m)).
    { apply children_ids_spec. left.
      assert (exists t, In t all /\ belongs (Some (s_name m)) (Some v) t = true) as (t & Ht & HBt).
      { inversion D; subst; eauto. }
      apply belongs_iff in HBt. destruct HBt as (E1 & ids & E2 & E3). eauto 6. }
    destruct (CO m HmF Em) as [bs Hbs]; [intros E; now rewrite E in HV|].
    destruct (SH _ _ Hbs) as (m' & Hm' & En & _ & K & _).
    assert (m' = m). { apply filter_In in HmF, Hm'. apply (NoDup_map_inj s_name all); tauto. } subst m'.
    rewrite <- K in HV. apply in_map_iff in HV. destruct HV as ([j c'] & E & HJ). cbn in E. subst j.
    destruct (IH NB c') as (w & L & SAT); [eapply SUB; eauto|].
    exists ((s_name m, v) :: w). split; [|apply sat_app; auto].
    rewrite signal_tree_eq. eapply leads_down with (t := create_signal_tree c').
    + apply in_map_iff. exists m. split; [|exact HmF]. f_equal. rewrite (in_get _ sspec _ _ _ ND Hbs). reflexivity.
    + apply in_map_iff. exists (v, c'). split; [reflexivity|exact HJ].
    + exact L.
Qed.

(** For a message with distinct signal names: the settings of a signal name distinct multiplexers, and the
    signal is part of a frame with multiplexer values [mv] iff one of its settings agrees with [mv].  A
    multiplexer with branches is not listed; all other signals are. *)
Theorem C37_message fid ext name len unused sigs strict sort m :
  mk_message fid ext name len unused sigs strict sort = Ok m -> names_unique (m_signals m) ->
  (forall n l w, sget (invert_signal_tree (m_tree m)) n = Some l -> In w l -> NoDup (map fst w)) /\
  (forall s, In s (m_signals m) -> s_is_mux s = true -> (exists i, known_id (m_signals m) s i) ->
     sget (invert_signal_tree (m_tree m)) (s_name s) = None) /\
  (forall s mv, In s (m_signals m) -> (s_is_mux s = false \/ forall i, ~ known_id (m_signals m) s i) ->
     (active (m_signals m) mv s <->
      exists l w, sget (invert_signal_tree (m_tree m)) (s_name s) = Some l /\ In w l /\
                  forall k v, In (k, v) w -> mv k = Some v)).
Proof.
  intros H U.
  assert (B : m_tree m = create_signal_tree (m_codec m) /\ exists f, create_codec f (m_signals m) (m_length m) None None = Ok (m_codec m)).
  { unfold mk_message in H. destruct (if ext then _ else _); [discriminate|]. apply bind_ok in H. destruct H as ([c t] & R & H).
    apply Ok_inj in H. subst m. cbn. unfold refresh in R. apply bind_ok in R. destruct R as (_ & _ & R).
    apply bind_ok in R. destruct R as (c' & C & R). apply bind_ok in R. destruct R as (_ & _ & R). apply Ok_inj in R.
    injection R as <- <-. eauto. }
  destruct B as [-> [f C]]. apply create_codec_wfc in C; [|exact U]. set (all := m_signals m) in *. set (c := m_codec m) in *.
  assert (ND : forall n w, In w (ways_to n (create_signal_tree c)) -> NoDup (map fst w)).
  { intros n w HI. apply leads_ways in HI. destruct (leads_wfc _ _ _ _ _ U C _ _ HI) as [CH _]. eapply chain_nodup; eauto. }
  assert (BR : forall s, In s all -> (branching all s <-> s_is_mux s = true /\ exists i, known_id all s i)).
  { intros s Hs. unfold branching. split; intros [E K]; (split; [exact E|]).
    - destruct (children_ids all s) as [|i l] eqn:Q; [contradiction|]. exists i. apply children_ids_spec. rewrite Q. now left.
    - destruct K as [i K]. apply children_ids_spec in K. intros Q. rewrite Q in K. contradiction. }
  split; [|split].
  - intros n l w G HI. rewrite C37_ways in G by (intros; eapply ND; eauto).
    destruct (ways_to n (create_signal_tree c)) as [|a r] eqn:E; [discriminate|]. injection G as <-. apply (ND n). now rewrite E.
  - intros s Hs M K. rewrite C37_ways by (intros; eapply ND; eauto).
    destruct (ways_to (s_name s) (create_signal_tree c)) as [|w r] eqn:E; [reflexivity|]. exfalso.
    assert (HI : In w (ways_to (s_name s) (create_signal_tree c))) by (rewrite E; now left).
    apply leads_ways in HI. destruct (leads_wfc _ _ _ _ _ U C _ _ HI) as (_ & s' & H1 & H2 & H3 & _).
    assert (s' = s) by (apply (NoDup_map_inj s_name all); auto). subst s'. apply H3. apply BR; auto.
  - intros s mv Hs NM.
    assert (NB : ~ branching all s). { rewrite (BR s Hs). intros [M [i K]]. destruct NM as [E|E]; [congruence|eapply E; eauto]. }
    rewrite <- desc_active. rewrite C37_ways by (intros; eapply ND; eauto). split.
    + intros D. destruct (desc_leads _ _ _ _ _ _ _ U C D NB) as (w & L & SAT). apply leads_ways in L.
      destruct (ways_to (s_name s) (create_signal_tree c)) as [|a r]; [contradiction|]. eauto.
    + intros (l & w & G & HI & SAT).
      assert (HI' : In w (ways_to (s_name s) (create_signal_tree c))).
      { destruct (ways_to (s_name s) (create_signal_tree c)) as [|a r]; [discriminate|]. injection G as <-. exact HI. }
      apply leads_ways in HI'. destruct (leads_wfc _ _ _ _ _ U C _ _ HI') as (_ & s' & H1 & H2 & _ & H4).
      assert (s' = s) by (apply (NoDup_map_inj s_name all); auto). subst s'. auto.
Qed.

(** ** Examples *)
Open Scope string_scope.
Example C37_hypotheses :
  mk_message 291 false "Ex" 8 255 ex_sigs true SortDefault = Ok ex_msg /\ names_unique (m_signals ex_msg) /\
  sget (invert_signal_tree (m_tree ex_msg)) "D" =
    Some [[("Mux", 0); ("Sub", 3)]; [("Mux", 0); ("Sub", 4)]; [("Mux", 1); ("Sub", 3)]; [("Mux", 1); ("Sub", 4)]] /\
  sget (invert_signal_tree (m_tree ex_msg)) "Mux" = None.
Proof.
  split; [vm_compute; reflexivity|]. split; [apply names_nodup; vm_compute; reflexivity|]. split; vm_compute; reflexivity.
Qed.
