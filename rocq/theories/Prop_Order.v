(** Prop_Order: C50 (sort functions) and C51 (signal tree). *)
From Coq Require Import Sorting.Permutation Sorting.Sorted.
From Verif Require Import Base PyNum Conversion Signal Message LayoutSpec CodecSpec DictLemmas
     TreeProofs Construct CodecThms Strict Examples.

(** ** C50 *)
(** Each sort function returns the stable sort of its input, and nothing else is one. *)
Theorem C50_sort_by_start_bit signals out :
  out = sort_signals_by_start_bit signals <->
  stable_sort_of (fun a b => start_bit a <=? start_bit b) signals out.
Proof. exact (sort_start_bit_spec signals out). Qed.

Theorem C50_sort_by_name signals out :
  out = sort_signals_by_name signals <->
  stable_sort_of (fun a b => String.leb (s_name a) (s_name b)) signals out.
Proof. exact (sort_name_spec signals out). Qed.

(** The order of the third function in terms of the signals: unmultiplexed signals, by start bit, come before the multiplexed ones, which are ordered by
    their first multiplexer id and then by start bit.  Ids below -1, which no file format gives, come before the unmultiplexed signals. *)
Definition first_id (s : signal) : option Z := match s_mux_ids s with Some (i :: _) => Some i | _ => None end.
Definition grouped (a b : signal) : bool :=
  match first_id a, first_id b with
  | None, None => start_bit a <=? start_bit b
  | None, Some j => -1 <=? j
  | Some i, None => i <? -1
  | Some i, Some j => (i <? j) || ((i =? j) && (start_bit a <=? start_bit b))
  end.
Theorem C50_sort_by_start_bit_and_mux signals out :
  out = sort_signals_by_start_bit_and_mux signals <-> stable_sort_of grouped signals out.
Proof.
  assert (E : forall a b, grouped a b = mux_order a b).
  { intros a b. unfold grouped, first_id, mux_order, mux_first, mux_truthy. destruct (s_mux_ids a) as [[|i ia]|], (s_mux_ids b) as [[|j ib]|]; cbn [negb andb orb Bool.eqb]; lia. }
  rewrite (sort_mux_spec signals out). unfold stable_sort_of.
  split; intros (P & S & T); (split; [exact P|split]).
  - eapply StronglySorted_impl; [|exact S]. intros a b H. cbv beta in *. now rewrite E.
  - intros k. erewrite filter_ext; [rewrite T; apply filter_ext|]; intros x; unfold same_key; now rewrite ?E.
  - eapply StronglySorted_impl; [|exact S]. intros a b H. cbv beta in *. now rewrite <- E.
  - intros k. erewrite filter_ext; [rewrite T; apply filter_ext|]; intros x; unfold same_key; now rewrite ?E.
Qed.

(** The reversed sort is the reverse of the stable sort. *)
Theorem C50_sort_by_start_bit_reversed signals out :
  out = sort_signals_by_start_bit_reversed signals <->
  stable_sort_of (fun a b => start_bit a <=? start_bit b) signals (rev out).
Proof. exact (sort_reversed_spec signals out). Qed.

Theorem C50_idempotent signals :
  sort_signals_by_start_bit (sort_signals_by_start_bit signals) = sort_signals_by_start_bit signals /\
  sort_signals_by_name (sort_signals_by_name signals) = sort_signals_by_name signals /\
  sort_signals_by_start_bit_and_mux (sort_signals_by_start_bit_and_mux signals)
    = sort_signals_by_start_bit_and_mux signals.
Proof. exact (sorts_idempotent signals). Qed.

Example C50_case : map s_name (sort_signals_by_start_bit ex_sigs)
  = ["Mux"; "State"; "Speed"; "Sub"; "B"; "C"; "D"; "E"; "F"]%string /\
  map s_name (sort_signals_by_start_bit_and_mux (rev ex_sigs)) <> map s_name (rev ex_sigs).
Proof. split; [vm_compute; reflexivity|vm_compute; discriminate]. Qed.

(** The reversed sort is neither stable nor idempotent: signals with equal start bits swap. *)
Theorem C50_reversed_idempotent_refuted :
  exists signals,
    sort_signals_by_start_bit_reversed (sort_signals_by_start_bit_reversed signals)
      <> sort_signals_by_start_bit_reversed signals /\
    ~ stable_sort_of (fun a b => start_bit b <=? start_bit a) signals (sort_signals_by_start_bit_reversed signals).
Proof.
  exists [sig "A" 0 1 false false plain_conv; sig "B" 0 1 false false plain_conv]. split; [vm_compute; discriminate|].
  intros (_ & _ & H). specialize (H (sig "A" 0 1 false false plain_conv)). vm_compute in H. discriminate.
Qed.

(** ** C51 *)
(** The node reached in [signal_tree] along a path of (multiplexer, id) steps lists exactly the
    signals below the last step, and exactly the paths of the message exist. *)
Theorem C51_signal_tree m path names :
  strict_message m ->
  tree_node (m_tree m) path names <->
  exists last, mux_path (m_signals m) None path last /\
               names = map s_name (filter (below_step last) (m_signals m)).
Proof. intros SM. destruct (strict_message_ok m SM) as [OK _]. now apply signal_tree_spec. Qed.

Lemma zmem_iff x l : zmem x l = true <-> In x l.
Proof.
  unfold zmem. rewrite existsb_exists. split.
  - intros (y & Hy & E). apply Z.eqb_eq in E. now subst.
  - intros H. exists x. split; [assumption|apply Z.eqb_refl].
Qed.

(** Along a path all listed signals are active when the multiplexers have the values of the path. *)
Lemma mux_path_active all mv :
  names_unique all -> forall st p st',
  mux_path all st p st' ->
  (forall name i, In (name, i) p -> mv name = Some i) ->
  (match st with Some (name, i) => exists m, In m all /\ s_name m = name /\ s_is_mux m = true /\ active all mv m /\ mv name = Some i | None => True end) ->
  forall s, In s all -> below_step st' s = true -> active all mv s.
Proof.
  intros U st p st' H. 
  assert (B : forall st s, (match st with Some (name, i) => exists m, In m all /\ s_name m = name /\ s_is_mux m = true /\ active all mv m /\ mv name = Some i | None => True end) ->
              In s all -> below_step st s = true -> active all mv s).
  { intros [[name i]|] s HST Hs HB; unfold below_step in HB; destruct (s_mux_sig s) as [n'|] eqn:EM; try discriminate.
    - destruct HST as (m & Hm & En & Em & Am & Hi). apply andb_true_iff in HB. destruct HB as [HB1 HB2].
      apply String.eqb_eq in HB1. subst n'. destruct (s_mux_ids s) as [ids|] eqn:EI; [|discriminate].
      apply active_child with m i ids; auto; try congruence. now apply zmem_iff.
    - now apply active_root. }
  induction H as [st|st m i p st' Hm HB Em HK HP IH]; intros HV HST s Hs HL.
  - eapply B; eauto.
  - apply IH; auto.
    + intros name j HI. apply HV. now right.
    + exists m. split; [assumption|]. split; [reflexivity|]. split; [assumption|]. split; [eapply B; eauto|]. apply HV. now left.
Qed.

Theorem C51_listed_signals_active m path names mv :
  strict_message m -> tree_node (m_tree m) path names ->
  (forall name i, In (name, i) path -> mv name = Some i) ->
  forall s, In s (m_signals m) -> In (s_name s) names -> active (m_signals m) mv s.
Proof.
  intros SM HT HV s Hs HN. destruct (strict_message_ok m SM) as [OK _].
  apply (C51_signal_tree m path names SM) in HT. destruct HT as (st & HP & ->).
  apply in_map_iff in HN. destruct HN as (s' & E & Hs'). apply filter_In in Hs'. destruct Hs' as [Hs' HB].
  assert (s' = s) by (apply (NoDup_map_inj s_name (m_signals m)); auto; apply OK). subst s'.
  eapply mux_path_active; eauto; [apply OK|exact I].
Qed.

(** Conversely every signal active under some multiplexer values is listed along such a path. *)
Theorem C51_active_signals_listed m mv s :
  strict_message m -> active (m_signals m) mv s ->
  exists path names, tree_node (m_tree m) path names /\ In (s_name s) names /\
                     forall name i, In (name, i) path -> mv name = Some i.
Proof.
  intros SM A. destruct (strict_message_ok m SM) as [OK _].
  assert (P : exists path last, mux_path (m_signals m) None path last /\ below_step last s = true /\ In s (m_signals m) /\
                forall name i, In (name, i) path -> mv name = Some i).
  { induction A as [s Hs EM|s x v ids Hs EM Ax IH EX EV EI HI].
    - exists [], None. split; [constructor|]. split; [unfold below_step; now rewrite EM|]. split; [assumption|]. intros ? ? [].
    - destruct IH as (p & last & HP & HB & Hx & HV).
      exists (p ++ [(s_name x, v)]), (Some (s_name x, v)). split; [|split; [|split; [assumption|]]].
      + assert (HK : known_id (m_signals m) x v) by (left; exists s, ids; auto).
        clear - HP HB Hx EX HK. induction HP; cbn.
        * apply path_cons; auto. constructor.
        * apply path_cons; auto.
      + unfold below_step. rewrite EM, String.eqb_refl, EI. cbn. now apply zmem_iff.
      + intros name i H. apply in_app_or in H. destruct H as [H|[[= <- <-]|[]]]; auto. }
  destruct P as (p & last & HP & HB & Hs & HV). exists p, (map s_name (filter (below_step last) (m_signals m))).
  split; [apply (C51_signal_tree m _ _ SM); eauto|]. split; [apply in_map; now apply filter_In|assumption].
Qed.

Example C51_case : strict_message ex_msg /\
  tree_node (m_tree ex_msg) [("Mux", 1); ("Sub", 5)]%string ["E"]%string.
Proof.
  split; [exact ex_strict|].
  eapply tree_step; [vm_compute; left; reflexivity|right; left; reflexivity|].
  eapply tree_step; [cbn; left; reflexivity|right; right; left; reflexivity|]. apply tree_here.
Qed.
